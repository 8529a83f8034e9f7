# Formal model of riptable in Rocq (Coq 8.16.1)

## 1. Approach

The Python layer of riptable is modelled function by function as total Gallina functions over lists, `nat`, `Z` and records. Exceptions are values. Loops are structural recursion or folds (with explicit fuel where Python has an unbounded `while`, and a proof that the fuel suffices). Stateful objects are state machines (`init`, `step`) over all histories. Parallel loops that only store are an arbitrary interleaving of the stores of their iterations (Sched.v); parallel loops that read what other iterations write are threads over a shared memory with atomic reads and writes (Threads.v). Arrays shared between objects live in a heap with locations. Uninitialised memory and undefined C results are universally quantified (`junk`).

Files: `*Model.v` the code, `*Spec.v` independent vocabulary for the statements, `*Proofs*.v` and `*Facts.v` lemmas, `*Props.v` the theorems named in MANIFEST.json, each followed by `Print Assumptions` and accompanied by an example that a concrete case meets its hypotheses.

Where the faithful model violates a property, a theorem with suffix `_refuted` exhibits the witness and a theorem with suffix `_partial` proves what does hold.

## 2. Trusted base

* Coq 8.16.1's kernel (including its virtual machine, used by `vm_compute` in examples, refutations and table lookups) and the compiler that built it. `coqchk` can re-check the compiled files.
* `Print Assumptions` of every theorem listed in MANIFEST.json says "Closed under the global context": no axiom of the standard library is used and none of our own exists. There is no Admitted, no Axiom/Parameter/Variable outside a section, no functor or module type. The axioms `Coq.ssr.ssrunder.Under_rel.*` that a scan of the loaded libraries reports belong to the standard library's ssreflect tactic support; they come in with library files the development loads, and no theorem depends on them.
* The faithfulness of the model: every definition cites the lines it models and its simplifications. It was written from the text of the code; the code was never run.
* Section variables and hypotheses are discharged into the statements, so what a theorem assumes is in its statement.
* The contracts of section 3.

## 3. Contracts of code that is not in the repository

riptide_cpp (C++), numpy, numba and the Python runtime are not in /repo. The model uses their documented behaviour, always as an executable definition or as an explicit hypothesis of the theorem, never as an axiom.

| contract | used for | where |
|---|---|---|
| grouping primitives: groupbyhash / groupbylex number the distinct keys, groupbypack lists the rows of each group in order, ismember gives the first match | groupby, merge, categoricals, duplicated | GroupModel.v |
| fancy indexing / mbget on one dimension: negative indices wrap, out of range gives the invalid value | merge, asof, grouping | GroupingModel.v `mbget`, MergeModel.v |
| lexsort: a permutation sorting by the last key first (`lexsort_contract`, a hypothesis; stability not needed) | sorting | SortSpec.v |
| numpy searchsorted on a sorted table | dates, time zones, partitions | DateModel.v, PdsModel.v |
| string to nanoseconds (DateTimeStringToNanos) | reading local times | DateModel.v |
| astype between numeric types; numpy result_type and min_scalar_type | matching across types | LosslessModel.v |
| rc.IsMember32 | ismember | LosslessModel.v |
| crc of an array: theorems that need distinct arrays to have distinct checksums say so (`faithful`, `crc_ok`) | sort cache, stacking, aligning | SortSpec.v, GroupingProps.v, CatProps.v |
| numba prange: iterations may interleave arbitrarily, single stores are atomic | parallel kernels | Sched.v, Threads.v |
| int64 arithmetic wraps | sums, as-of tolerance, 2-D indexing | FillModel.v, AsofModel.v, LosslessModel.v |
| float arithmetic: EMA and sums are over an abstract carrier with uninterpreted operations, so the theorems fix the order of operations but not rounding | EMA | FillModel.v |


## 4. What is modelled

Each definition in a Model file carries the file and lines it models; this table lists, per Model file, the source ranges cited in it.

| model file | source lines in /repo/riptable |
|---|---|
| Acc2Model.v | rt_accum2.py 122-183, 418-428, 426; rt_groupbykeys.py 206-210; rt_grouping.py 84-133, 3277-3472; rt_dataset.py 2149-2160 |
| AggModel.v | rt_grouping.py 2204-2330, 2428-2500, 2521-2941, 2725-2790, 2936-2941, 2944-3227, 3277-3490, 3433-3454, 3514-3550; rt_groupbyops.py 331-363, 360-460, 434-460, 529-548; rt_numpy.py 2658-2673; rt_groupbykeys.py 232-240; rt_fastarray.py 1307-1335; rt_groupby.py 283, 322-347, 657-670; rt_categorical.py 5046-5057, 5060-5080, 5155; rt_dataset.py 721-756 |
| ArModel.v | rt_dataset.py 7394-7474; rt_accumtable.py 1283-1323 |
| ArrModel.v | rt_numpy.py 1186-1393, 5502-5610; rt_bin.py 17-136; rt_utils.py 779-793, 779-936, 797-853, 857-936, 1090-1135; rt_fastarray.py 1897-1961, 4003-4021, 4023-4043, 4046-4125, 4128-4150, 4153-4217, 4220-4248, 4251-4319, 4354-4411, 4413-4527; rt_grouping.py 1557-1574; rt_enum.py 595 |
| ArrowModel.v | rt_fastarray.py 5685-6030, 5731-5816, 5756-5816, 5773-5778, 5842-5875, 5877-5899, 5954-5965, 5988-6004, 5988-6027; rt_categorical.py 1966-1983, 5486-5981, 5526-5616, 5548-5615, 5618-5691, 5630-5674, 5740-5789, 5791-5900, 5902-5978; rt_grouping.py 565-628, 784-785 |
| AsofModel.v | numba/invalid_values.py 213-249, 241-243, 295-340, 322-324; rt_merge_asof.py 62-67, 89-94, 148-237, 215, 237, 240-418, 418, 472-561, 539, 564-742, 745-801, 804-809, 812-956, 865, 959-1143, 1024 |
| BdModel.v | rt_accum2.py 597-657; rt_struct.py 4831-4838 |
| CatModel.v | rt_categorical.py 743-785, 788-803, 1050-1098, 1118-1180, 1725-1731, 3138-3165, 3272-3300, 3336-3350, 3915-3937, 3965-4098, 4305-4392, 4609-4661, 4704-4821, 4905-4930, 6439-6477; rt_grouping.py 1165-1247, 1353-1375, 3977-3979; rt_numpy.py 897-956 |
| CpModel.v | rt_accumtable.py 1326-1657; rt_struct.py 3645-3697 |
| CsvfModel.v | rt_struct.py 307-332, 316, 2605-2650; rt_dataset.py 643-687, 656, 7478-7534, 7537-7571, 7569-7570; rt_csv.py 79-98, 101-111, 114-122, 119-120, 125-134, 133, 137-144; rt_itemcontainer.py 461-464, 469-488; rt_io.py 12-36, 39-71 |
| CutModel.v | rt_bin.py 137-686, 517-535 |
| CvModel.v | rt_struct.py 1779-1832; rt_itemcontainer.py 409-440, 417-439 |
| DateModel.v | rt_datetime.py 545-580, 782-798, 801-821, 812, 814, 1475-1531, 1704-1705, 1709-1723, 1727-1762, 1766-1799, 1843-1878, 1876, 1877, 1882-1919, 1917, 1923-1974, 1960-1969, 1960, 1967, 1978-2015, 2019-2052, 2056-2088, 2092-2097, 3114-3130, 3134-3149, 3152-3205, 3266-3294, 3298-3346, 3325, 3332, 3349-3364, 3367-3383, 3386-3402, 3421-3443, 3447-3486, 3468-3477, 3468, 3475, 3490-3516, 3520-3534, 3606-3625, 3629-3648, 3722-3731, 3734-3749, 3774-3792, 3962-3984, 3983, 4439-4564, 4666-4714, 4717-4763, 5297-5357; rt_timezone.py 1065-1079, 1083-1116, 1120-1162, 1171-1177, 1180-1195, 1198-1199, 1202-1213, 1237-1291, 1294-1317 |
| DateOpsModel.v | rt_datetime.py 545-580, 824-834, 844, 1018-1057, 2122-2235, 2238-2288, 2573-2580, 2583-2590, 5201-5208, 5249-5259, 5255-5257, 5261-5265, 5270-5280, 5282-5285, 5556-5594, 6270-6289, 6292-6298, 6315-6414, 6416-6455 |
| DpModel.v | contracts only |
| DsModel.v | rt_dataset.py 1663-1724, 3557-3628, 6781-6855, 6995-7138, 7478-7534, 7537-7571, 7574-7658, 7720-7784, 7787-7949; rt_hstack.py 388-593; rt_groupbyops.py 214-234 |
| ExModel.v | rt_str.py 93-113; rt_dataset.py 7142-7207 |
| FillModel.v | rt_fastarraynumba.py 19-150, 24-41, 48-65, 71-88, 95-112, 116-142, 330-500, 334-338; rt_groupbynumba.py 30-206, 30-50, 189-206, 385-492, 448-492; rt_grouping.py 3350-3400 |
| FlattenModel.v | rt_struct.py 2116-2406; rt_categorical.py 3703 |
| FootModel.v | rt_itemcontainer.py 20-57, 48-58, 187-201, 204-225, 304-309, 316-333, 336-366, 426-440; rt_struct.py 2655-2678, 3501-3509 |
| GbrModel.v | rt_dataset.py 6394-6459, 6445-6448, 6451, 6454-6455, 6458-6459 |
| GiModel.v | rt_groupbyops.py 101-328, 108-125, 153-176, 161-178, 172-174, 181-211, 203-211, 214-234, 237-328, 577-618, 577-856, 722-773, 795-797, 799-854; rt_groupby.py 210-295, 251-286, 419-432, 419-429, 673-695, 722-773, 722-769, 764-766; rt_grouping.py 1625-1641, 2357-2410, 3497-3503; rt_groupbykeys.py 155-179, 354-358 |
| GqModel.v | rt_groupbyops.py 859-1113, 1502-1794, 1562-1584, 1581-1582, 1609, 1624, 1632-1715, 1655, 1657-1659, 1661-1662, 1720-1731, 1726, 1734-1747, 2997-3083, 3031-3037; rt_fastarray.py 2609-2612; rt_utils.py 1172-1185, 1179; rt_numpy.py 4153-4245, 4248-4254; rt_grouping.py 1414-1438; rt_struct.py 3449-3496 |
| GroupModel.v | rt_numpy.py 1186-1393, 1901-1975, 1978; rt_grouping.py 1518-1541 |
| GroupingModel.v | rt_utils.py 631-733, 1139-1169; rt_categorical.py 6227-6244; rt_numpy.py 1512-1545, 1574-1597, 1601-1763, 1736, 1743-1754, 1745-1753; rt_grouping.py 136-274, 245-251, 249-251, 277-414, 381-407, 383-407, 1009-1043, 1487-1514, 1625-1703, 1706-1733, 1920-2046, 2049-2201, 2357-2430, 2521-2941, 2635-2636, 3230-3269, 3514-3550, 3640-3807, 3810-4030, 3839, 3977-3979; rt_enum.py 666-680; rt_hstack.py 665-694, 691 |
| ItemsModel.v | rt_struct.py 152-155, 171-175, 215-269, 272-310, 410-414, 437-446, 449-454, 457-470, 473-479, 496-504, 507-517, 520-563, 837-861, 2605-2652, 2700, 3118-3130, 3128, 3129-3130, 3158-3242, 3272-3293, 3288-3289, 3296-3326, 3304-3315, 3316, 3317-3323, 3329-3338, 3371-3378, 3411-3418, 3421-3498, 3627-3639, 3732-3795, 3792-3795; rt_itemcontainer.py 287-293, 304-309, 336-366, 384-406, 409-440, 460-464, 469-488, 491-506, 509-519, 522-532, 547-576; rt_dataset.py 4067-4069, 4133 |
| KsModel.v | rt_struct.py 5328-5365; rt_categorical.py 1196-1256 |
| LosslessModel.v | rt_numpy.py 222-276, 432-455, 432-506, 441-446, 452-453, 458-498, 479-487, 1126-1180, 1366-1393, 1374-1391; rt_utils.py 591-627; rt_fastarray.py 1329-1342, 1416-1422, 1424-1426 |
| MargModel.v | rt_dataset.py 2483-2604, 2562-2572, 7787-7940; rt_accumtable.py 1000-1002; rt_itemcontainer.py 409-440; rt_accum2.py 918-995 |
| MergeColsModel.v | rt_merge.py 382-485, 2080-2289, 2212-2252, 2293-2870, 2592-2631, 2635-2645, 2728-2833, 2857-2861, 3229-3569; rt_utils.py 631-733 |
| MergeModel.v | rt_enum.py 666-680; rt_merge.py 488-499, 502-558, 561-572, 611-665, 668-731, 734-884, 933-975, 978-1211, 1214-1241, 1220-1234, 1336-1402, 1357-1385, 1404-1576, 1427-1447, 1515-1573, 1579-1625, 1767-1845, 1848-1872, 1934-2077, 2183-2192; rt_grouping.py 1557-1594, 3717-3807 |
| MiModel.v | rt_dataset.py 4933-5319 |
| MkModel.v | rt_categorical.py 681-740, 715-732, 4171-4229, 4305-4392, 4411-4462, 4465-4516, 4609-4657, 4757-4762, 4776-4778, 4793-4797, 4810-4821, 5426-5483, 6594-6651; rt_grouping.py 565-628, 3230-3269, 3838-3849 |
| MoModel.v | rt_merge.py 268-379, 2874-3226, 3068, 3120-3135, 3154-3170, 3178-3203, 3217-3218, 4039-4329, 4121-4210, 4332-4420, 4373-4377 |
| MsModel.v | rt_sds.py 1127-1166, 1127-1593, 1222-1247, 1253-1322, 1259-1270, 1374-1449, 1391-1399, 1454-1508, 1512-1533, 1537-1593, 1769-1782, 2294-2313; rt_grouping.py 136-414, 190-203; rt_pdataset.py 106-128, 116-117; rt_categorical.py 3703 |
| MuModel.v | rt_struct.py 215-269, 394-563, 457-470, 507-513, 520-563, 633-655, 2444-2476, 3421-3499; rt_dataset.py 643-680, 722, 1459-1469; rt_itemcontainer.py 187-201, 409-440, 469-488, 615-637; rt_multiset.py 102-232, 102-175, 286-434, 557-628, 657-697; rt_meta.py 205-279 |
| NaModel.v | rt_categorical.py 2136-2302; rt_grouping.py 1165-1247 |
| NmModel.v | rt_grouping.py 1838-1912; rt_utils.py 216-237; rt_enum.py 78 |
| NuModel.v | rt_fastarray.py 3934-3996; rt_numpy.py 755-986, 5409-5445, 5431-5438, 5442-5443; rt_enum.py 88-150, 580-610; rt_datetime.py 1475-1531 |
| OvModel.v | rt_sds.py 327-364, 508-670, 719-937, 2432-2437, 3461-3555, 3750-3788; rt_enum.py 942, 1049, 3785-3787 |
| PdsModel.v | rt_pdataset.py 61-96, 106-141, 124-128, 145-239, 158-216, 160-168, 181-188, 184, 191-197, 193, 200-212, 203, 209, 220-234, 240-277, 256, 281-286, 392-409, 415-450, 453-471, 512-524, 527-563, 604-610, 628-648, 651-671, 674-700; rt_struct.py 2474-2476 |
| RdModel.v | rt_fastarray.py 150-241 |
| RoModel.v | rt_numpy.py 5504-5610, 5550-5610; rt_struct.py 2959-3061; rt_fastarray.py 5470-5472; rt_dataset.py 1912-2160, 2012-2160, 3067-3120, 4415-4472, 4475-4483, 4519-4760; rt_imatrix.py 47-58 |
| SdsAppModel.v | rt_sds.py 3676-3742, 3691-3693, 3700-3714, 3717-3732 |
| SdsModel.v | rt_enum.py 942; rt_sds.py 425-497, 719-937, 897-915, 1664-1851, 2436-2437, 2497-2551, 2731-2799, 2974-3264, 3163-3188, 3204-3242, 3245-3252, 3268-3373, 3377-3408, 3411-3458, 3443-3456, 3495-3512, 3559-3585, 3589-3742, 3750-3829, 3778-3779, 3833-3875, 3866-3869; rt_struct.py 1159-1316, 1205-1290, 1589-1740, 1648-1699, 1694-1695, 1701-1722, 2433-2440; rt_categorical.py 3703 |
| ShapeModel.v | rt_dataset.py 7987-8144; rt_grouping.py 84-133, 1557-1574; rt_numpy.py 1592-1594, 1767-1791, 4729-4788; rt_imatrix.py 47-58; rt_categorical.py 3138-3165 |
| SortModel.v | rt_sort_cache.py 30-100; rt_dataset.py 673-687, 695-719, 701-719, 3973-4137, 3973-3982, 3985-4000, 4003-4013, 4060-4082, 5340-5365, 5755-5791; rt_struct.py 174-176, 457-479, 473-479, 1599-1630, 1623-1629, 3370-3498, 3376-3378, 3495-3498, 3786-3795, 3790-3795, 4806-4815, 4808-4815; rt_numpy.py 2658-2673; rt_itemcontainer.py 547-576 |
| StModel.v | rt_hstack.py 165-207, 200-204, 273-384, 296, 304-313, 310-349, 321-322, 321-333, 332-333, 344-349, 355-384; rt_struct.py 873-934, 873-915, 898-906, 914-915, 1558-1578, 3848-3907; rt_numpy.py 5614-5656; rt_grouping.py 565-628 |
| StrModel.v | rt_str.py 84-90, 129-161, 189-205, 281-291, 294-305, 308-319, 322-339, 328-336, 342-359, 347-351, 362-379, 367-371, 382-394, 397-416, 419-444, 419-431, 434-444, 446-464, 468-494, 478-479, 485-490, 497-515, 508-511, 556, 585, 712-735, 748-771, 773-808, 786, 1159-1176, 1218-1226, 1232-1257, 1259-1275, 1278-1303 |
| SvModel.v | contracts only |
| SzModel.v | rt_struct.py 5183-5326; rt_categorical.py 2597-2605, 2602-2605 |
| TabCmpModel.v | rt_dataset.py 1472-1529, 1472-1510, 2387-2459, 2512-2541, 3631-3777, 8215-8288; rt_groupbyops.py 2349-2480; rt_itemcontainer.py 384-406 |
| TabModel.v | rt_dataset.py 310-997, 383-389, 473, 510-539, 550-620, 643-667, 673-687, 722, 735-799, 790-797, 954-981, 983-989, 983-997, 1234-1373, 1234-1317, 1259-1260, 1333-1354, 1338, 1349-1354, 1363-1364, 1425-1469, 1532-1538, 1541-1626, 1596-1612; rt_struct.py 205-212, 215-269, 272-304, 394-563, 457-470, 507-517, 520-563, 609-801, 622-625, 752-801, 2605-2652, 2621-2637; rt_itemcontainer.py 173-184, 173-306, 187-201, 304-309, 336-341, 590-678; rt_numpy.py 4166 |
| TdModel.v | rt_datetime.py 6700-6724 |
| TmModel.v | rt_datetime.py 545-576, 545-581, 1018-1086, 1531, 2291-2337, 2291-2346, 2304-2305, 2339-2340, 2481-2547, 2925-3001, 2925-2998, 2994-2995, 3000-3001, 4066-4104, 5736-5867, 5740-5742, 5745-5867, 5800-5804, 6769-6799, 6769-6886, 6769-6820, 6855-6886; rt_enum.py 217 |
| UfModel.v | contracts only |
| WhereModel.v | rt_numpy.py 280-317, 360-374, 2917-3140, 3024-3027, 3043-3049, 3051-3140, 3060-3062, 3080-3131; rt_fastarray.py 1243-1304, 1262-1301; rt_categorical.py 514-515, 1681-1682; rt_grouping.py 565-628 |

## 5. What is not modelled

* C++ code (riptide_cpp), numpy and numba themselves (contracts above).
* Beyond what a model file cites: SDS file format and IO (rt_sds.py, rt_sharedmemory.py; of csv files the parsing of the text and the version that uses pandas, rt_csv.py; of numpy directories the file system and the npy format, rt_io.py), display and styling (rt_display.py, rt_misc.py), plotting (rt_matplotlib.py), timers and logging (rt_timers.py, rt_ledger.py, rt_logging.py), type registration (rt_enum.py beyond index widths).
* The older `merge` (rt_merge.py:2874-3226) and the Python wrapper of `merge_asof` around the kernels (argument parsing, dtype checks).
* Statistics whose whole work is in C++ (sum, mean, var, rolling functions).
* Floating-point rounding, except in LosslessModel.v where conversion is modelled exactly.
* Threads other than the library's own parallel loops.
* Memory limits: list lengths are unbounded unless a theorem says otherwise.


## 6. Properties

Status `proved`: the full statement. `partial`: the theorems ending in `_partial` (or without suffix) prove what holds, those ending in `_refuted` exhibit a reachable counterexample in the model of the unchanged code; the note says what is missing.

| id | property | status | method | theorems | note |
|---|---|---|---|---|---|
| C01 | String case conversion | proved | byte/unicode rows as lists of character codes with NUL padding, each kernel as a recursive function mirroring the loop; spec = list functions on the visible text; induction | C01_upper, C01_lower, C01_case_chars, C01_upper_inplace (StrProps.v) |  |
| C02 | String reverse | proved | byte/unicode rows as lists of character codes with NUL padding, each kernel as a recursive function mirroring the loop; spec = list functions on the visible text; induction | C02_reverse, C02_reverse_twice, C02_reverse_inplace (StrProps.v) |  |
| C03 | String length | proved | byte/unicode rows as lists of character codes with NUL padding, each kernel as a recursive function mirroring the loop; spec = list functions on the visible text; induction | C03_strlen (StrProps.v) |  |
| C04 | Substring search | proved | byte/unicode rows as lists of character codes with NUL padding, each kernel as a recursive function mirroring the loop; spec = list functions on the visible text; induction | C04_index, C04_contains, C04_index_any_of (StrProps.v) |  |
| C05 | Prefix and suffix tests | proved | byte/unicode rows as lists of character codes with NUL padding, each kernel as a recursive function mirroring the loop; spec = list functions on the visible text; induction | C05_startswith, C05_endswith (StrProps.v) |  |
| C06 | Remove trailing character | proved | byte/unicode rows as lists of character codes with NUL padding, each kernel as a recursive function mirroring the loop; spec = list functions on the visible text; induction | C06_removetrailing (StrProps.v) |  |
| C07 | Replace is leftmost non-overlapping replacement | proved | byte/unicode rows as lists of character codes with NUL padding, each kernel as a recursive function mirroring the loop; spec = list functions on the visible text; induction | C07_replace, C07_replace_nothing, C07_replaced_deterministic (StrProps.v) |  |
| C08 | substr slicing agrees with Python slicing | proved | byte/unicode rows as lists of character codes with NUL padding, each kernel as a recursive function mirroring the loop; spec = list functions on the visible text; induction | C08_substr, C08_char (StrProps.v) |  |
| C09 | Data-parallel kernels do not depend on scheduling | proved | a prange loop is a fold of per-iteration writes over an arbitrary permutation of iterations; disjoint-write lemma; refutation by witness where writes overlap | C09_asof_groups, C09_asof_groups_exist, C09_grouped_kernels_deterministic, C09_merge_indices, C09_string_rows, C09_disjoint_rows (AsofProps.v, FillProps.v, MergeProps.v, StrProps.v) |  |
| C10 | Column dictionary invariants | partial | ordered association list; step function over operations; invariant by induction over histories | C10_names_distinct, C10_set_column, C10_delete_column, C10_column_count_partial, C10_column_count_refuted (ItemsProps.v) | Distinctness, set and delete hold after every history. The column count holds for ordinary histories; C10_column_count_refuted shows st.shape = 5 (an attribute name of the class) stores an uncounted column. |
| C11 | Renaming a column | proved | ordered association list; step function over operations; invariant by induction over histories | C11_rename (ItemsProps.v) |  |
| C12 | Moving columns | proved | ordered association list; step function over operations; invariant by induction over histories | C12_move_to_front, C12_move_to_back (ItemsProps.v) |  |
| C13 | col_map is a simultaneous rename | partial | col_map branch by branch; result as name->value map compared with simultaneous substitution | C13_col_map_partial, C13_col_map_succeeds, C13_col_map_refuted, C13_col_map_atomic_refuted, C13_col_map_attributes_refuted (ItemsProps.v) | Proved when every key is a column or some new name is a column. Refuted in general: {'a':'x','x':'y'} on a Struct with only column a renames a to y. Also refuted: atomicity on raise, attributes following the data round a cycle. |
| C14 | col_str_replace keeps every column | partial | ordered association list; step function over operations; invariant by induction over histories | C14_col_str_replace_partial, C14_col_str_replace_refuted (ItemsProps.v) | Proved when the replaced names stay distinct and no sort list is set; refuted otherwise. |
| C15 | flatten / flatten_undo round trip | partial | rose trees; flatten and the stack-style undo; induction on trees | C15_flatten_round_trip_partial, C15_flat_names_distinct, C15_name_with_separator_refuted, C15_name_with_bang_refuted (FlattenProps.v) | Proved for every depth, shape and separator when names are non-empty, not '_root', and contain no character of the separator and no '!'. Refuted for names containing the separator (an item is overwritten) or '!' (a column is taken for a category array); both are accepted by Struct. |
| C16 | fill_forward / fill_backward | proved | loop state machine; positional spec | C16_fill_forward, C16_fill_backward, C16_limit_argument (FillProps.v) |  |
| C17 | Grouped fill | partial | per-group loop over a packed index; equals fill of extracted group; schedule independence by Sched.v | C17_grouped_fill_forward, C17_grouped_fill_backward, C17_grouped_fill_inplace, C17_filtered_rows_determined_refuted (FillProps.v) | Rows that belong to a group: proved for every schedule, in place or not. Refuted: a filtered row of the not-in-place result is an uninitialised cell. |
| C18 | Running minimum and maximum | partial | running extremum over option values; refutation for skipna=False integers | C18_cummin_cummax_int, C18_cummin_cummax_float, C18_skipna_false_partial, C18_skipna_false_refuted (FillProps.v) | skipna=True proved for integers and floats. skipna=False proved for floats, signed minimum, unsigned maximum; refuted for signed maximum and unsigned minimum (the result recovers after an invalid value). |
| C19 | Grouped numba reductions and their work split | partial | bins split in core ranges; fold over rows restricted to range; partition lemma | C19_work_split, C19_grouped_sum, C19_sum_of_valid_refuted, C19_grouped_min_partial, C19_min_refuted (FillProps.v) | Work split proved. Sum proved equal to the wrapped 64-bit sum of all elements of the bin; refuted: invalid integers are added too. Minimum proved for unsigned integers and for columns without invalid values; refuted for signed integers and floats ([5, invalid, 7] gives 7). |
| C20 | Composite keys are faithful | partial | codes as integers, categories as lists; expansion function as the abstraction | C20_same_group_iff_both_agree, C20_columns_show_both_keys, C20_invalid_mode_shows_both_keys, C20_filter_refuted (GroupingProps.v) | Agreement and shown values proved for every size and mode. Refuted for the filter argument: a removed row gets the code of the category ('Inv','Inv') in invalid mode, and the filter is ignored otherwise. |
| C21 | Stacking categoricals preserves values | proved | codes as integers, categories as lists; expansion function as the abstraction | C21_hstack_shows_the_same, C21_hstack_base0_shows_the_same (GroupingProps.v) | Proved for base 1 and base 0, for any number of categoricals. Hypothesis: the CRC tells the category arrays at hand apart (crc_match compares checksums only). |
| C22 | Stacking mapped categoricals | partial | codes as integers, categories as lists; expansion function as the abstraction | C22_mapped_hstack_partial, C22_mapped_hstack_refuted, C22_shared_name_refuted (GroupingProps.v) | Proved for mappings that agree. Refuted: a code with two names shows the first name everywhere; a name with two codes loses one of them. |
| C23 | Regrouping drops only unused categories | partial | codes as integers, categories as lists; expansion function as the abstraction | C23_regroup, C23_regroup_of_rows_refuted (GroupingProps.v) | Proved for groupings that hold unique arrays (every Categorical). Refuted for groupings that hold row arrays (_grouping_dict): line 2106 takes row positions for categories and loses values. |
| C24 | Shrinking categories | partial | codes as integers, categories as lists; expansion function as the abstraction | C24_shrink_without_misc, C24_shrink_with_misc_partial, C24_shrink_with_misc_refuted (GroupingProps.v) | Proved without misc for every input. With misc proved when the last new category is an old one; refuted otherwise. |
| C25 | Group index dtype never overflows | proved | codes as integers, categories as lists; expansion function as the abstraction | C25_dtype_holds_every_code, C25_stacked_codes_fit (GroupingProps.v) | Counts up to 2^63 - 1. |
| C26 | take_groups / extract_groups | proved | codes as integers, categories as lists; expansion function as the abstraction | C26_take_groups, C26_extract_groups (GroupingProps.v) |  |
| C27 | Packing by group does not depend on history | partial | state machine with remembered packing; refutation by witness, partial theorem for a constant filter | C27_packing_partial, C27_igroup_refuted (GroupingProps.v) | Packing with a filter, with mustrepack and for user functions is history-free. Refuted: igroup after a filtered call returns the filtered packing. |
| C28 | User-function apply dtype independence | partial | column loop with the shared result buffer; refutation by witness, partial theorem for one column | C28_apply_reduce_partial, C28_apply_reduce_refuted (GroupingProps.v) | Proved when a dtype is given or the function always returns the same dtype. Refuted otherwise: the dtype of the first column's result is kept for the later columns and truncates them. |
| C29 | Comparing a categorical with a string | partial | codes + categories + grouping's own copy of the uniques as separate fields; expansion before/after each operation | C29_scalar_compare_partial, C29_equality, C29_array_compare_partial, C29_filtered_less_refuted, C29_unordered_refuted (CatProps.v) | Sorted categories: all six operators proved for rows that are not filtered; ==, != proved for all rows and unsorted lists. Refuted: a filtered row satisfies < and <=; order comparisons on unsorted categories are neither rejected nor right. |
| C30 | isin on a categorical | partial | codes + categories + grouping's own copy of the uniques as separate fields; expansion before/after each operation | C30_equals_list, C30_isin_partial, C30_filtered_isin_refuted, C30_not_equal_list_refuted (CatProps.v) | c == [values] proved. Grouping.isin proved for unfiltered rows, refuted for filtered rows (index -1). Refuted: c != [values] with two values is True everywhere. The multi-value path of Categorical.isin ends in C++ (rc.IsMemberCategoricalFixup) and is not modelled. |
| C31 | Category editing keeps other rows | partial | codes + categories + grouping's own copy of the uniques as separate fields; expansion before/after each operation | C31_edits_partial, C31_edit_raises_iff, C31_remove_shows_stale_refuted, C31_add_then_set_refuted, C31_replace_longer_refuted (CatProps.v) | Proved over all edit histories for what comparisons see (category_array). Refuted for what c[i] and expand_array show: they read the Grouping's copy of the categories, which no edit updates. |
| C32 | Mapping edits keep code<->string maps mutually inverse | partial | codes + categories + grouping's own copy of the uniques as separate fields; expansion before/after each operation | C32_mapping_edits_partial, C32_other_codes, C32_replace_refuted, C32_add_used_name_refuted (CatProps.v) | Proved for histories of additions of new names and removals. Refuted: mapping_replace, and mapping_add of a used name. |
| C33 | Assignment with auto-add | partial | codes + categories + grouping's own copy of the uniques as separate fields; expansion before/after each operation | C33_setitem_partial, C33_filtered_row_refuted, C33_other_row_shows_refuted (CatProps.v) | Proved for what comparisons see, when the value is a category already or no row is filtered. Refuted: filtered rows take the new category; c[i] of other rows changes. |
| C34 | Assigning from another categorical | partial | codes + categories + grouping's own copy of the uniques as separate fields; expansion before/after each operation | C34_same_categories_partial, C34_different_categories_refuted, C34_different_base_refuted (CatProps.v) | Proved for equal categories and base. Refuted otherwise: the target's own values are stored as codes. |
| C35 | set_valid leaves its source alone | partial | codes + categories + grouping's own copy of the uniques as separate fields; expansion before/after each operation | C35_set_valid, C35_set_valid_mapped_partial, C35_source_changed_refuted (CatProps.v) | Proved for categoricals with category arrays, base 0 or 1. Mapped: result proved; refuted: the source's codes are overwritten. |
| C36 | expand_dict / expand_array | partial | codes + categories + grouping's own copy of the uniques as separate fields; expansion before/after each operation | C36_expand_array, C36_expand_dict_partial, C36_expand_dict_base0_refuted (CatProps.v) | expand_array proved for both bases. expand_dict proved for base 1, refuted for base 0. |
| C37 | Deduplicating categories | proved | codes + categories + grouping's own copy of the uniques as separate fields; expansion before/after each operation | C37_make_unique (CatProps.v) | Single key. The multi-key path is not modelled. |
| C38 | align | proved | codes + categories + grouping's own copy of the uniques as separate fields; expansion before/after each operation | C38_align, C38_align_base0 (CatProps.v) | Proved for both bases. Hypothesis: the CRC tells the category arrays at hand apart. |
| C39 | Left join | proved | key groups as codes; the index builders function by function; spec = nested-loop join on key values | C39_left_join (MergeProps.v) |  |
| C40 | Inner join | proved | key groups as codes; the index builders function by function; spec = nested-loop join on key values | C40_inner_join (MergeProps.v) |  |
| C41 | Right join mirrors left join | proved | key groups as codes; the index builders function by function; spec = nested-loop join on key values | C41_right_join (MergeProps.v) |  |
| C42 | Outer join | partial | key groups as codes; the index builders function by function; spec = nested-loop join on key values | C42_outer_join, C42_right_only_count_refuted (MergeProps.v) | Rows proved for every input. Refuted: right_only_rowcount is 0 for an outer merge with an empty left table although every row is right-only. |
| C43 | keep='first' / keep='last' | partial | key groups as codes; the index builders function by function; spec = nested-loop join on key values | C43_keep_partial, C43_lengths_refuted, C43_outer_multikey_refuted (MergeProps.v) | Proved for every how/keep combination except the ones excluded by 'supported'. Refuted there: left merge keeping one left row per key but all right rows when a Categorical left key has filtered rows (index arrays of different lengths); outer merge on several columns with keep=(None,'first') and a null right key (row lost, another duplicated). |
| C44 | Join cardinality validation | proved | key groups as codes; the index builders function by function; spec = nested-loop join on key values | C44_validate (MergeProps.v) |  |
| C45 | Merged column names | proved | name lists with suffixes; set reasoning | C45_distinct, C45_complete, C45_raises_only_on_clash, C45_fresh_suffixes, C45_clash_raises (MergeProps.v) |  |
| C46 | Mismatched key list lengths are rejected | partial | argument check; refutation by witness | C46_mismatched_keys_refuted (MergeProps.v) | Refuted: the ValueError is constructed but not raised (rt_merge.py:2627-2630) and zip drops the surplus keys. |
| C47 | merge_lookup preserves left rows | proved | key groups as codes; the index builders function by function; spec = nested-loop join on key values | C47_lookup_columns, C47_lookup_raises (MergeProps.v) |  |
| C48 | Backward as-of match | proved | two-pointer loop as a recursive function with explicit pointers; spec by arg-max/arg-min over positions | C48_backward (AsofProps.v) |  |
| C49 | Forward as-of match | proved | two-pointer loop as a recursive function with explicit pointers; spec by arg-max/arg-min over positions | C49_forward (AsofProps.v) |  |
| C50 | Nearest as-of match | proved | two-pointer loop as a recursive function with explicit pointers; spec by arg-max/arg-min over positions | C50_nearest (AsofProps.v) |  |
| C51 | Grouped as-of match | proved | two-pointer loop as a recursive function with explicit pointers; spec by arg-max/arg-min over positions | C51_grouped (AsofProps.v) |  |
| C52 | Unsorted as-of keys are detected | partial | two-pointer loop as a recursive function with explicit pointers; spec by arg-max/arg-min over positions | C52_unsorted_left_partial, C52_unsorted_right_refuted, C52_unsorted_right_wrong_refuted, C52_unsorted_left_empty_right_refuted, C52_infinity_refuted (AsofProps.v) | Unsorted left columns are always detected when the right table has rows; sorted null-free columns are never rejected (C48-C50). Refuted: unsorted tail of the right column, unsorted left with empty right, a float column starting with -inf is rejected. |
| C53 | Fancy-index width | proved | two-pointer loop as a recursive function with explicit pointers; spec by arg-max/arg-min over positions | C53_index_width (AsofProps.v) |  |
| C54 | Dataset.duplicated | partial | columns as lists | C54_duplicated_first_none, C54_duplicated_last_partial, C54_duplicated_last_refuted (DsProps.v) | 'first' and False proved. 'last' proved for every key but the last unique one; refuted for that one: its packed position is used as a row number. |
| C55 | from_jagged_dict | partial | columns as lists | C55_jagged_dict_partial, C55_combinations_spec, C55_jagged_dict_refuted (DsProps.v) | Stacked form with non-empty lists proved against an independent cross product. Refuted: an empty list. |
| C56 | melt | partial | columns as lists | C56_melt, C56_name_clash_refuted (DsProps.v) | Proved for distinct names. Refuted: an id column named like the variable or value column is lost. |
| C57 | Stacking datasets | proved | columns as lists | C57_hstack, C57_row_ranges (DsProps.v) | dtype promotion and Categorical columns not modelled. |
| C58 | concat_columns | proved | columns as lists | C58_first_last, C58_raise, C58_heights (DsProps.v) |  |
| C59 | iterrows yields independent rows | partial | columns as lists | C59_iterrows_partial, C59_iterrows_refuted (DsProps.v) | Each row is right when delivered and the dataset is untouched. Refuted: rows kept by the caller all show the last row. |
| C60 | Sort cache is transparent | partial | cache state machine; crc as a parameter; theorem under collision freedom, refutations | C60_cache_transparent_partial, C60_dtype_refuted, C60_load_refuted (SortProps.v) | Transparent for every history if the crc separates the columns one dataset has had and loaded indexes are ascending sorts. Refuted: dtype is not in the cache key; the direction of a saved view is lost. |
| C61 | Partition bookkeeping | partial | cumulative sums | C61_slices, C61_partition, C61_labels_partial, C61_stale_refuted, C61_repeated_refuted (PdsProps.v) | Slices, partitions and row labels proved for every list of datasets. Refuted: pcat keeps old names after set_pnames; repeated names given to the constructor. |
| C62 | Partition names from file names | partial | character scanning; refutation + partial | C62_distinct, C62_part, C62_series_partial, C62_single_partial, C62_refuted (PdsProps.v) | Distinctness and substring property proved for all file names; series of equal-width numbers named by the number. Refuted: numbers of different width, a single file beginning with its number, the colon. ASCII names only. |
| C63 | Calendar decomposition of Date | partial | tables imported literally; searchsorted over sorted tables; spec = recursive civil calendar | C63_fields_partial, C63_weekday, C63_yyyymmdd_partial, C63_invalid, C63_refuted (DateProps.v) | Fields agree with a day-by-day definition of the calendar for every valid date to the end of 2099, whatever the rest of the array; weekdays for all dates. Refuted from 2100 on (year table ends), for 1970-01-01 (taken for invalid) and before 1970. |
| C64 | DateTimeNano calendar fields agree with each other | partial | local shift as parameter; refutation + partial for UTC | C64_fields_partial, C64_weekend_partial, C64_day_of_month_partial, C64_minute_partial, C64_date_partial, C64_refuted (DateProps.v) | All fields derived from the displayed local time for displayed dates 1970-2099; minutes for zones whole hours from UTC, date() for UTC and zones with a daylight-saving table. Refuted: day_of_month mixes local year and UTC time, minute in Kolkata, date() in Tokyo. |
| C65 | Daylight saving rule | partial | tables imported by script; spec = second Sunday of March / first Sunday of November (last Sundays for Dublin) | C65_rule_partial, C65_fixed_zones, C65_refuted (DateProps.v) | Displayed time, is_dst and offset follow independently written daylight-saving rules over the range of the tables, except at the exact switch instant (refuted there and after 2040). Dublin before 1981 and Sydney before 2008 are outside the specification (tables are wrong there). |
| C66 | Local/UTC round trip | partial | piecewise constant offset; interval reasoning over the tables | C66_round_trip, C66_instant, C66_within_hour, C66_refuted (DateProps.v) | Displayed time read back is displayed the same, for all zones and instants (except exactly 1970-01-01 00:00 local); a uniquely displayed instant is recovered. Refuted for the first existing local time after the skipped hour. |
| C67 | Lossless common type | partial | dtype ranges and float conversion as rounding parameter; refutation + positive theorem | C67_type, C67_ismember_partial, C67_compatible, C67_pairs, C67_refuted (LosslessProps.v) | Conversion proved exact for every pair of types with a lossless common type (all but 64-bit integers with floats or the other sign); ismember is then first-match. Refuted for the value-based fallback (all() for any()) and for the multi-key path's invalid values. |
| C68 | Fancy indexing with invalid positions | partial | index arithmetic | C68_two_dims_partial, C68_getitem, C68_refuted (LosslessProps.v) | Two-dimensional mbget and FastArray indexing for all indices whose product with the column count fits int64; the one-dimensional routine is C++ and is used by contract. Refuted for a plain index array holding the invalid value. |
| C69 | substr_char_stop | partial | as C01-C08 | C69_char_stop_partial, C69_char_stop_refuted (StrProps.v) | Proved for inclusive=False and for one-character stop strings; refuted for inclusive=True with a longer stop string (only its first character is kept). |
| C70 | As-of tolerance for far-apart keys | partial | corollary of C48-C50; witness for the overflow | C70_tolerance_partial, C70_far_apart_refuted (AsofProps.v) | Refuted: the int64 subtraction wraps round, so keys 2^63 apart count as within any tolerance. |
| C71 | Merged columns follow the joined rows | partial | cells of the assembled columns related to the spec rows of the join | C71_merged_columns_partial (MergeProps.v) | Missing only the outer multi-column case with keep on the right and null right keys, which is false (C43_outer_multikey_refuted). Key dtype checks and copy=False are not modelled. |
| C72 | Grouped EMA uses only the rows of the group | proved | loop over packed groups against a recursive series, any schedule | C72_grouped_ema (FillProps.v) |  |
| C73 | apply_nonreduce keeps rows aligned | proved | packed loop with user function against per-group application | C73_apply_nonreduce (GroupingProps.v) | One-column functions; all results of one dtype. |
| C74 | count with transform=True | partial | counts by group | C74_count_transform_partial, C74_count_transform_refuted (GroupingProps.v) | Proved for every row that belongs to a group. Refuted: a filtered row gets the count of the last group (index -1 wraps round). |
| C75 | Comparing two categoricals | partial | merged code spaces; values before and after | C75_two_categoricals_partial, C75_less_refuted, C75_base0_refuted (CatProps.v) | == and != proved for base 1. Refuted: base 0; <. |
| C76 | Copies and slices are independent | partial | heap of shared arrays; step functions | C76_copy_values_partial, C76_copy_shares_categories_refuted, C76_copy_base0_refuted, C76_rows_after_replace_refuted, C76_take_rows (CatProps.v) | Values of copies and selections proved. Refuted: copies share the category array; a copy of a base 0 categorical becomes base 1; a selection after category_replace is flagged sorted and == misses rows. |
| C77 | unique of a categorical | partial | set of shown values | C77_unique_partial, C77_unused_category_refuted (CatProps.v) | Proved with a filter or a dirty grouping. Refuted otherwise: unused categories are returned. |
| C78 | Mapping a categorical through a dictionary | partial | lookup tables | C78_map_partial, C78_filtered_partial, C78_invalid_ignored_refuted (CatProps.v) | Proved for unfiltered rows, and for filtered rows when some category is missing from the dictionary. Refuted: invalid is ignored when every category is mapped. |
| C79 | nunique and one-hot encoding of a categorical | proved | codes and categories before and after | C79_nunique, C79_one_hot (CatProps.v) |  |
| C80 | Shifting a categorical | partial | index shift against a list shift of shown values | C80_shift_partial, C80_shift_base0_refuted (CatProps.v) | Base 1 proved; base 0 refuted. |
| C81 | from_rows | proved | column rows against zip | C81_from_rows (DsProps.v) |  |
| C82 | from_tagged_rows | partial | dictionary loop over rows | C82_tagged_rows_partial, C82_tagged_rows_refuted (DsProps.v) | Rows with equal key sets proved. Refuted: key sets that differ but occur equally often are accepted. |
| C83 | from_jagged_rows | partial | padding and string widths | C83_jagged_rows_partial, C83_jagged_rows_refuted (DsProps.v) | Byte-string rows proved. Refuted: unicode rows, bytes fill, long fill. |
| C84 | Dataset.trim | proved | dictionary of rows | C84_trim (DsProps.v) |  |
| C85 | A sort view shows the requested order | partial | state machine over sort operations, simulation with the list of user requests | C85_view_partial, C85_alias_refuted, C85_copy_refuted, C85_raise_refuted (SortProps.v) | Proved for every history in which key lists in use are not shared or edited, keys are not repeated, copies take all or none of the keys, no str_replace on a view. Refuted outside: shared list, partial copy, raising copy and str_replace. |
| C86 | sort_copy and sort_inplace | proved | permutation by contract of lexsort | C86_sort_copy (SortProps.v) | lexsort by contract (stable permutation not needed). |
| C87 | Date arithmetic, start of month and week, ranges | partial | calendar arithmetic over the recursive civil calendar | C87_add, C87_sub, C87_add_invalid, C87_start_of_month_partial, C87_start_of_week, C87_range, C87_range_step, C87_range_days, C87_refuted (DateOpsProps.v) | Refuted only for start_of_month in January 1970; calendar to 2099. |
| C88 | Comparison with invalid dates | partial | comparison with masks | C88_valid, C88_left_invalid_partial, C88_refuted (DateOpsProps.v) | An invalid left operand is handled; refuted for an invalid right operand (valid > invalid is True). |
| C89 | Time buckets | partial | searchsorted against intervals | C89_bucket, C89_regular, C89_label, C89_pre_post, C89_invalid, C89_refuted (DateOpsProps.v) | All cut points and times; refuted for exact midnight with a pre bucket. The sorting of explicit bucket lists and the strftime of labels are not modelled. |
| C90 | Resampling times | partial | rounding and ranges | C90_down, C90_range_partial, C90_refuted (DateOpsProps.v) | Refuted when the array has invalid rows (range starts in 1970). Parsing of the rule text is not modelled; the step is in nanoseconds. |
| C91 | Changing time zones and Arrow round trip | partial | state of a time array (instants, zones) through conversions | C91_zones, C91_arrow_partial, C91_refuted (DateOpsProps.v) | Arrow round trip proved for times given in UTC, refuted for other zones (instants shift, nulls become valid, display zone lost). |
| C92 | Smallest type for a number | partial | case analysis over types with integer arithmetic | C92_fits_partial, C92_least, C92_refuted (LosslessProps.v) | Fit, least width, invalid and sign; refuted for prefer_signed without promote_invalid (128 gets int8). Float and non-integer scalars are not modelled. |
| C93 | shift and diff | partial | slice reads and writes over uninitialised memory, row by row | C93_shift_diff, C93_shift_back, C93_diff_zero_refuted (ArrProps.v) | All periods; diff(0) refuted for arrays of one element. Subtraction in the array's dtype is a parameter. |
| C94 | transitions and differs | partial | same slice lemmas with a comparison | C94_self_compare_partial, C94_zero, C94_differs_refuted, C94_transitions_refuted (ArrProps.v) | Numeric arrays; refuted for strings (differs is inverted, the first rows count as transitions). |
| C95 | FastArray.duplicated | proved | heads of the groups against earlier and later occurrences | C95_duplicated (ArrProps.v) | All arrays; the Grouping is any numbering of the distinct values (its own correctness is C-level and taken by contract). |
| C96 | map and replacena | proved | mask assignment; induction over the dictionary | C96_map, C96_map_old, C96_replacena (ArrProps.v) | ismember by contract; keys without invalid values. |
| C97 | Mask operations | partial | heap of masks, induction over the argument list | C97_mask_ops_partial, C97_mask_errors, C97_inplace_alias_refuted, C97_inplace_error_refuted (ArrProps.v) | Any operation and number of masks; refuted for the in-place form with the first mask repeated, and for errors after a partial update. Python bools among the arguments are not modelled. |
| C98 | quantile of an array | partial | order statistics characterised by counting; window of a sorted permutation | C98_quantile_partial, C98_quantile_unique, C98_lower_higher_refuted (ArrProps.v) | Exact arithmetic; 'lower' and 'higher' refuted between values (they raise). q outside [0,1] is not checked by the code and not modelled. |
| C99 | Dataset.quantile and describe | partial | same order statistics over the valid values | C99_quantile_partial, C99_quantile_refuted, C99_describe_partial, C99_describe_nans_refuted (ArrProps.v) | Refuted for quantile on signed integers with invalid values and for Nans of an all-invalid column. Mean and Std are not modelled; exact arithmetic. |
| C100 | sample | proved | permutations and sorted distinct rows | C100_sample (ArrProps.v) | All three kinds of filter, any generator and any sort. |
| C101 | Dataset row-count invariant | partial | memory of blocks and array handles, invariant by induction over the session | C101_row_count, C101_property_name_refuted (TabProps.v) | Any session; names assigned as attributes are valid column names. Refuted for attribute assignment to the name of a property (ds.size = ...). One element type, no 2-D columns. |
| C102 | A failing Dataset operation changes nothing | partial | case analysis of every operation, frame lemma for memory | C102_failure_atomic_partial, C102_empty_dataset_refuted, C102_several_columns_refuted (TabProps.v) | One-column operations on a dataset with a row count. Refuted for a dataset without columns and for assignments to several columns. |
| C103 | Column assignment and construction | partial | exact description of setattr; induction over the dictionary | C103_assign_column, C103_labels_and_locks, C103_construct, C103_delete_column, C103_renamed_column_lost_refuted (TabProps.v) | Valid names. Refuted: two names renamed to the same column lose one. |
| C104 | Filtering and row selection | proved | induction over the columns, allocation only | C104_filter_inplace, C104_select_rows, C104_filter_copy (TabProps.v) | All selections; slices with non-negative bounds and step 1. |
| C105 | Assignment to cells | partial | induction over the columns with a disjointness invariant | C105_set_cells_partial, C105_set_scalar_partial, C105_swap_refuted (TabProps.v) | Columns in separate storage. Refuted for a right-hand side of views of the same columns. |
| C106 | Dataset.putmask | partial | same, masks | C106_putmask_partial, C106_putmask_array_partial, C106_shared_refuted (TabProps.v) | Columns in separate storage. Refuted for a right-hand side sharing columns. |
| C107 | Labels and deep copies | partial | label objects in a second memory; frame property of sessions | C107_label_round_trip, C107_deep_copy, C107_shared_labels_refuted (TabProps.v) | Any session on either side. Refuted for row selections and shallow copies, which share label objects. |
| C108 | Comparison of datasets | partial | induction over both column lists | C108_compare, C108_not_equal_missing_refuted (TabCmpProps.v) | All operators; != on a column only one side has is False (refuted as negation of ==). |
| C109 | Dataset.equals | partial | characterisation of the NaN tables, cell by cell | C109_equals_partial, C109_equals_names_partial, C109_extra_nan_column_refuted, C109_exact_refuted (TabCmpProps.v) | Default arguments, no labels. Refuted: an extra all-NaN column is ignored; exact=True ignores names and broadcasts. |
| C110 | Dataset.drop_duplicates | proved | group slices against earlier and later occurrences | C110_drop_duplicates (TabCmpProps.v) | Grouping by contract in first-occurrence order; footers and labels of the result not modelled. |
| C111 | Dataset arithmetic | proved | induction over the columns | C111_arithmetic (TabCmpProps.v) | No fill value; in-place forms and summary columns not modelled. |
| C112 | Key columns of grouped results do not depend on the history | partial | state machine of the key object, invariant relating the cached columns to one order; induction over the uses | C112_keys_partial, C112_sort_after_filtered_refuted, C112_isortrows_after_filtered_refuted (AggProps.v) | All uses that keep the sort setting; refuted for keys(sort=True) and isortrows on unsorted keys after the filtered entry was shown. |
| C113 | A grouped result row carries its own key | partial | invariant of the calculating object over any history; reordering of results and keys by the same permutation | C113_reduce_result, C113_count, C113_apply_reduce_partial, C113_apply_reduce_showfilter_refuted (AggProps.v) | Any history; C++ reductions by contract. apply_reduce with showfilter=True is refuted. |
| C114 | transform gives every row its group's value | partial | result expanded by codes; reverse shuffle inverts the display order | C114_transform_partial, C114_apply_transform_partial, C114_transform_once, C114_flag_refuted, C114_apply_reduce_refuted, C114_base_refuted, C114_filtered_row_refuted, C114_showfilter_refuted (AggProps.v) | Refuted for filtered rows, base index 0 and enums, .transform and apply_reduce on sorted display, and showfilter with an ordered categorical; proved outside these cases. |
| C115 | apply puts results where they belong | partial | concatenated group results against row ranks inside groups | C115_apply_reducing_partial, C115_apply_same_length_partial, C115_empty_group_refuted, C115_single_rows_refuted (AggProps.v) | One data column; refuted for a sorted display with a group emptied by the filter and for groups of one row each. |
| C116 | Every cell of a two-way table is the function of exactly its rows | partial | bins of the combined code characterised by pairs of codes; slices of the bin array; invariant of the two key objects over any history | C116_cells_partial, C116_apply_reduce_partial, C116_filtered_column_refuted, C116_names_refuted (Acc2Props.v) | Any history, any filters; column names must be different. The Filtered column is refuted when the row keys are sorted for display. |
| C117 | Totals of a two-way table agree with the data | proved | permutation of the concatenated cell selections to the margin's selection, and the decomposition law of the function | C117_totals (Acc2Props.v) | badrows and badcols are not modelled. |
| C118 | Totals of other calculations agree with the data | partial | one-way grouped calculation against the margin's selection | C118_multipass_totals_partial, C118_apply_reduce_totals_partial, C118_sorted_refuted, C118_unshown_rows_refuted, C118_base0_refuted, C118_apply_reduce_filter_refuted (Acc2Props.v) | Proved when keys are displayed in the order found, codes are not base 0 and every row that passes has both keys; each restriction is refuted without it. |
| C119 | Indexing a two-way table by row number gives the keys of that row | partial | div/mod decoding of the combined code and the key object invariant | C119_getitem_partial, C119_sorted_refuted (Acc2Props.v) | Refuted when the keys are sorted for display. |
| C120 | transform of a two-way calculation gives every row its cell's value | proved | lookup of the bin array by the combined code | C120_transform (Acc2Props.v) | One data column. |
| C121 | The table of counts counts every row once | partial | counts as lengths of selections; sums over permuted parts | C121_count_partial, C121_filtered_sorted_refuted (Acc2Props.v) | Refuted for showfilter=True with row keys sorted for display (totals). |
| C122 | A pivot table shows every value in the cell of its keys | partial | combined codes and slices of the bin array, as for C116; contract of the Categorical constructor | C122_pivot_partial, C122_duplicates, C122_filter_refuted, C122_names_refuted (ShapeProps.v) | Proved for distinct column names and at most one row per cell, the filtered rows counting as one cell; both restrictions are refuted without them. Making the Categorical of the keys (C++) is a contract, met by an executable instance. |
| C123 | Pivot followed by melt gives the rows back | partial | composition of C122 with the melt theorem C56 | C123_pivot_melt_partial, C123_blank_refuted (ShapeProps.v) | Needs what C122 needs; 0, empty and NaN values are dropped by trim (refuted otherwise). |
| C124 | Transposing turns rows into columns without losing any | partial | fold of column assignments with distinct names; composition with itself | C124_transpose_partial, C124_twice_partial, C124_lost_refuted (ShapeProps.v) | Proved for distinct row names different from the header; refuted otherwise. |
| C125 | Reducing over rows, columns or everything agrees | partial | permutation of the concatenated columns to the concatenated rows and the decomposition law | C125_columns, C125_rows, C125_axes_agree_partial, C125_unchanged_partial, C125_unchanged_refuted, C125_whole_refuted (ShapeProps.v) | Refuted: axis=1 changes the dataset when columns have different types; axis=None with a column that is not computable reduces the columns' results. |
| C126 | any and all mean the same over every axis | partial | invariant of the fold over columns | C126_any_all_partial, C126_other_refuted (ShapeProps.v) | Refuted for columns other than numbers and strings, which axis=1 ignores. |
| C127 | One-hot columns say which category a row has | partial | fold of assignments of fresh names | C127_one_hot_partial, C127_names_refuted (ShapeProps.v) | Proved when the new names are distinct and not in use; refuted otherwise. |
| C128 | Footers are exactly what was set and not removed | partial | simulation: heap of attribute objects with an ownership invariant (every object belongs to one column of one Dataset) refines independent maps label x column -> value | C128_answers_partial, C128_exceptions_partial, C128_read_back, C128_remove_twice_refuted, C128_label_stays_refuted (FootProps.v) | Proved for histories without shallow copies and sort_copy of Datasets with footers (see C129) and without repeated labels in footer_remove (refuted: KeyError after the values are gone). Removing a column leaves labels without values (stated as a finding). |
| C129 | Copies keep their own footers | partial | the same invariant; frame property of every operation | C129_independent_partial, C129_copy_same, C129_shallow_refuted, C129_sort_copy_refuted (FootProps.v) | Proved for deep copies; refuted for shallow copies and selections, which share the attribute objects, and for sort_copy, which raises when there are footers. |
| C130 | cut puts every value in its bin | partial | binary search modelled by its contract (number of edges below the value); sortedness gives the bins; labels by the first arrow in the text | C130_bins_partial, C130_partition, C130_order, C130_repeated, C130_labels, C130_right_refuted, C130_short_filter_refuted, C130_two_equal_refuted (CutProps.v) | Exact rationals for floats. right=False is refuted (docstring's known issue), as are filters shorter than the array and two equal edges. The rounding and printing of edges are parameters; labels are proved different whenever some precision below 20 separates the edges. Integer and string inputs are not modelled. |
| C131 | cut into n bins makes equal bins that cover the data | partial | linspace over rationals | C131_equal_width_partial (CutProps.v) | Missing: arrays with infinities (linspace of them is not modelled) and floating-point rounding of the edges. |
| C132 | qcut bins by quantiles, evenly | partial | quantiles of C98, counted through order statistics | C132_quantiles_partial, C132_equal_sizes_partial, C132_ties (CutProps.v) | The counts need different values; with ties bins are merged or refused (C132_ties). Exact rationals for floats; the lexsort is any function that sorts. |
| C133 | arithmetic between tables with totals acts on the totals too | partial | layout invariant (labels, data, summaries) through the column loop | C133_arithmetic_partial, C133_other_names_refuted, C133_unlike_refuted (MargProps.v) | For tables of one shape; with different data column names or different numbers of totals the totals go wrong (refuted). Only column-wise operations between two Datasets; type promotion is not modelled. |
| C134 | AccumTable.gen shows the tables last given, after any history | partial | invariant of the inner tables over all histories | C134_gen_partial, C134_missing, C134_unknown_margin_refuted (MargProps.v) | For tables with one summary column and one footer row, as Accum2 gives them, under names that are not columns. The text display is not modelled. |
| C135 | accum_ratio divides the aggregates, cell by cell and total by total | partial | C116/C117 for the two tables, C133 for the division, C134 for the result | C135_ratio_partial (MargProps.v) | For aggregates that can be done in parts (sum, count, min, max); totals enabled; the names used must differ from the column labels. The replacement of invalid categories in the caller's Categorical is not modelled. |
| C136 | accum_ratiop gives each cell's share of the table, of its row or of its column | partial | C134, then a fold over the columns that keeps the layout | C136_ratiop_partial, C136_all_blank_refuted (MargProps.v) | As C135. With remove_blanks and nothing but zeros the call fails (refuted). |
| C137 | accum_cols computes each column on its own | partial | induction over the list of columns | C137_cols_partial (MargProps.v) | As C135; all four lists of the same length (the code silently stops at the shortest). |
| C138 | trim removes exactly the blank columns and rows | partial | filters on columns and rows | C138_trim, C138_all_blank_refuted (MargProps.v) | The refuted case is a Dataset of nothing but blanks, which keeps its rows (the statement says so). |
| C139 | a nested Struct saved to .sds is loaded again | partial | invariant of the written directory (holds), induction over the tree and the schema built from the listing | C139_saved_struct_is_loaded_partial, C139_saved_struct_is_loaded_exactly_partial, C139_order_of_containers_is_kept_refuted, C139_labels_are_kept_refuted, C139_exclamation_mark_refuted, C139_sds_ending_refuted (SdsProps.v) | Missing: the order (and labels) of containers in a container-only Struct, the labels of the root, container names with ! or ending in .sds (all refuted). The file contents are an exact map from a file name to type, labels, metadata and named arrays: compression is by contract. |
| C140 | a save that stops half way, or missing files, lose only their own data | partial | files form a prefix or subset of the saved ones; loaded leaves characterised by the files | C140_missing_files_partial, C140_stopped_save, C140_missing_file_is_reported_refuted (SdsProps.v) | Crash points between files; a file is written completely or not at all. With missing files the proved part leaves out None values, which stand for missing containers (refuted). |
| C141 | saving over an existing directory | partial | leaves of a clean directory characterised by the files, then old and new files told apart | C141_saved_over_partial, C141_saved_over_covered_partial, C141_old_contents_are_gone_refuted, C141_new_data_is_loaded_refuted (SdsProps.v) | For a resulting directory that is clean (readable files; only Struct files have files below them). Old items coming back, and hiding new data, is refuted. |
| C142 | the bulk load of a directory gives each item its own file | partial | index of the running counter equals the position of the file, by mutual induction over schema and listing | C142_bulk_load_is_file_by_file_partial, C142_bulk_load_is_file_by_file_refuted (SdsProps.v) | On clean directories; an array file with files below it breaks it (refuted). With a root file see C143. |
| C143 | what is loaded from a directory at a path is what its file says | partial | induction over the schema | C143_data_comes_from_its_file_partial, C143_data_comes_from_its_file_root_partial (SdsProps.v) | On clean directories; the root file is the one of a saved Struct. |
| C144 | Datasets saved into the directory of a saved Struct are loaded with it | partial | invariant over the history of saves | C144_dataset_saved_into_directory_partial, C144_struct_saved_into_directory_refuted, C144_dataset_over_array_refuted (SdsProps.v) | Only Datasets, and not under the name of an array of the Struct or of a container with containers in it; a flat Struct or array saved into the directory is not loaded (refuted). |
| C145 | the last save to a path is what load returns | partial | induction over the history of saves | C145_last_save_is_loaded_partial, C145_last_save_is_loaded_refuted (SdsProps.v) | For paths without a directory; after a nested save a flat save is not seen (refuted). |
| C146 | a Dataset or flat Struct written to one .sds file is read back exactly | partial | split of the stored arrays by name prefix | C146_one_file_round_trip_partial, C146_exclamation_mark_refuted (SdsProps.v) | Names of array subclasses without ! (refuted otherwise); item contents are abstract. |
| C147 | sections appended to a file are put together in append order and none is lost | partial | uniqueness of sorting by offset; invariant of the column merge | C147_appended_sections, C147_sections_have_their_names_refuted (SdsProps.v) | Offsets of sections are distinct and in append order. That equal sections lose their names is refuted. |
| C148 | sds_flatten keeps every Struct | partial | flattening is a map on disjoint names; schema of the union | C148_flattened_directory_is_loaded_partial, C148_flatten_keeps_files_refuted (SdsProps.v) | For a base directory without other files; a base file dir.sds is overwritten (refuted). |
| C149 | integer arrays go to pyarrow and back unchanged | partial | min_max characterised by a fold invariant; per value case analysis over the types; chunks by induction | C149_integers_round_trip_partial, C149_arrow_values_are_kept_partial, C149_refused, C149_zero_copy, C149_arrow_values_are_kept_refuted (ArrowProps.v) | pyarrow functions by contract, value by value; memory sharing and writability are left out. A null beside the invalid value in a widened array becomes a number (refuted). |
| C150 | string arrays go to pyarrow and back unchanged | partial | per string; trailing NULs by induction | C150_strings_round_trip_partial, C150_arrow_strings_round_trip_partial, C150_refused, C150_fixed_bytes_round_trip_partial, C150_fixed_bytes_are_kept_partial, C150_fixed_bytes_slice_refuted, C150_arrow_strings_round_trip_refuted (ArrowProps.v) | Strings ending in NUL are left out; null and empty are one in riptable, and a slice of a fixed_size_binary array is read as the whole array (refuted). |
| C151 | Categoricals go to pyarrow and back unchanged | partial | index arithmetic per type (wrap, widen) by cases, then pointwise equality of rows | C151_categorical_round_trip_partial, C151_categorical_to_arrow, C151_dictionary_array_partial, C151_dictionary_array_refuted, C151_longer_dictionary_refuted, C151_ordered_flag_refuted, C151_multikey_round_trip_refuted (ArrowProps.v) | Categories go through pyarrow by hypothesis (C149, C150 for their arrays). Refuted: nulls beside the last index of an unsigned type, index 127 with a longer dictionary, the ordered flag, several keys. |
| C152 | Categoricals with a mapping go to pyarrow and back unchanged | partial | position of first occurrence in a list without repetition; sortedness of positions | C152_mapping_round_trip_partial, C152_mapping_round_trip_refuted (ArrowProps.v) | No code is the invalid value; unnamed codes get the empty name (refuted). |
| C153 | where of numbers takes the chosen element | partial | row by row over combined lists; exactness of casts from LosslessProofs | C153_where_chooses_partial, C153_where_of_arrays, C153_where_refuses, C153_where_of_one_partial, C153_python_numbers_are_chosen_refuted, C153_one_element_keeps_invalid_refuted, C153_arrays_are_exact_refuted (WhereProps.v) | rc.Where and numpy's promotion by contract; strings, Booleans and python floats are left out. Refuted: python integers equal to the invalid value of the smallest type, invalid integers under a condition of one element, 64-bit integers with floats. |
| C154 | where of Categoricals shows the chosen category | partial | merge_cats of two Categoricals (C21) split at the length of the first, then row by row | C154_where_of_categoricals_partial, C154_base_index_0_is_chosen_refuted, C154_mapped_is_chosen_refuted, C154_mapped_is_accepted_refuted, C154_mapped_partial (WhereProps.v) | Stacking as in C21. Refuted for base index 0 and for mapped Categoricals whose codes are not 1, 2, ... |
| C155 | assignment to elements changes those elements only | partial | induction over the positions with the last value assigned as specification; a mask as its positions | C155_assignment_partial, C155_mask_assignment_partial, C155_assignment_refuses, C155_numbers_are_stored_or_refused_refuted (WhereProps.v) | numpy's assignment by contract. Numbers too large for the type wrap around (refuted). |
| C156 | Stacked Structs keep everything | partial | induction on depth: what is at a path of the result, from the items collected name by name | C156_stacked_structs_partial, C156_no_data_is_lost_refuted (StProps.v) | Dataset.hstack is a parameter (C57); arrays are one-dimensional and stacking arrays of one class succeeds. Items of one name with different types lose data (refuted). |
| C157 | A stacked dictionary names the source of every row | partial | induction over the dictionary with the running code | C157_stacked_dictionary_partial, C157_dictionary_is_stacked_refuted (StProps.v) | Refuted for more than 127 arrays with fewer rows than that. |
| C158 | Struct.equals tells exactly whether two Structs hold the same | partial | induction on the nesting of the first Struct | C158_equals_partial, C158_equals_answers_partial, C158_equals_symmetric, C158_equals_itself_partial, C158_equal_structs_show_the_same_refuted, C158_struct_equals_itself_refuted, C158_equals_answers_refuted (StProps.v) | The CRC is a parameter, injective on the arrays compared. Refuted: arrays of other types or Categoricals with other categories but the same bytes; NaN scalars; a scalar against a Struct raises. |
| C159 | Comparison operators of Structs answer for every name | partial | induction on the nesting of the first Struct; result by name | C159_comparison_partial, C159_not_equal_means_different_refuted, C159_equal_to_itself_refuted, C159_equal_to_itself_partial, C159_scalars_are_compared_refuted (StProps.v) | Operators on elements and scalars are parameters; array against Struct is taken to raise. Refuted: != of arrays that differ in some elements, empty arrays, int against float scalars. |
| C160 | count_uniques counts the different values of each group | partial | pairs of code and value counted by code; keys from C113 | C160_count_uniques_partial, C160_base0_refuted, C160_mapping_refuted, C160_showfilter_refuted (GqProps.v) | The grouping by pairs is by contract (the different pairs). Refuted: base index 0, Categoricals from a mapping, the filtered entry with filter= and showfilter=True. |
| C161 | agg applies each function to the columns it is asked for | partial | invariant of the function dictionary over the pairs of column and function, then one calculation per function | C161_agg_partial (GqProps.v) | The functions and capitalize are parameters; the dictionary form of the argument; the single calculation is that of C113. |
| C162 | The grouped quantile is the quantile that was asked for | partial | error bounds of rounding to 53 bits and of int(); sorted permutations are unique | C162_quantile_partial, C162_out_of_range, C162_truncated_refuted (GqProps.v) | Values are integers (or NaN) and the result the pair of neighbours; C++ decodes the parameter by contract and computes positions exactly. Floats q are exact dyadics rounded to 53 bits. Proved: the answer belongs to a quantile at most 3e-9 away, and is the one asked for if no position is that close; int() truncation refuted otherwise. |
| C163 | Several quantiles at once give one column each | partial | unique decoding of the suffix; columns of the concatenation by name | C163_columns_partial, C163_clash_refuted (GqProps.v) | Number formatting is a parameter without underscore and without the letter; footers left out. A key named like a quantile column raises (refuted). |
| C164 | The rolling quantile looks at the last rows | partial | decoding of the combined parameter; window as rows | C164_rolling_partial (GqProps.v) | C++ decodes the parameter by contract; values are integers or NaN; q at most 2e-9 away. |
| C165 | Adding a span to a date or time adds it to every row | partial | one row of a masked, broadcast operation; table of classes by cases | C165_add_partial, C165_commutes_partial, C165_refused, C165_one_element_refuted, C165_filled_with_days_refuted, C165_timespan_one_refuted (TmProps.v) | Arrays of at least two rows. Numbers do not wrap and floats are whole numbers up to 2^53. Refuted: one-element arrays lose invalids; invalid DateSpan + DateTimeNano/TimeSpan filled with the 32-bit invalid; TimeSpan + one invalid DateSpan. |
| C166 | Subtracting dates, times and spans subtracts what they show | partial | as C165; difference with NaN for invalid points | C166_sub_partial, C166_refused, C166_days_as_nanos_refuted, C166_zone_refuted (TmProps.v) | As C165; from_tz GMT for Date - DateTimeNano. Refuted: TimeSpan - DateSpan takes days as nanoseconds; Date - DateTimeNano and DateTimeNano - Date disagree in other zones. |
| C167 | Adding and subtracting undo each other | partial | composition of the row-wise specifications | C167_add_then_sub_partial, C167_add_then_sub_point_partial, C167_sub_then_add_partial (TmProps.v) | Corollaries of C165 and C166 under their conditions. |
| C168 | In-place arithmetic on dates and times equals the plain operation | partial | same term as the plain operation by cases | C168_in_place_partial, C168_new_array, C168_refused_partial, C168_overwritten_refuted, C168_one_element_refuted (TmProps.v) | DateSpan += TimeSpan (float into int) is left out. Refuted: Date += Date raises after the array was overwritten; += on one invalid element makes it valid. |
| C169 | Loading several files stacked shows every file's rows, column by column | partial | cutoffs cut the concatenation back into the files; gaps found by ends of files; merge_cats from C21; order of names by induction | C169_stacked_load_partial, C169_first_class_wins_refuted, C169_bang_in_name_refuted (MsProps.v) | Column names without '!', files that agree on the class of a column, base 0 Categoricals in every file; the stacking reader is a contract, the checksum of categories is assumed injective on the categories present. Enum Categoricals left out. Refuted: class data of the first file wins; '!' in a Categorical's name raises. |
| C170 | Categoricals of different base index are not stacked from files | partial | the class list of a column is checked against its first | C170_bases_must_agree, C170_mixed_classes_refuted (MsProps.v) | Proved when no file has the column with other class data. Refuted for a date column that is a Categorical in a later file: not refused. |
| C171 | The partitions of a stacked load are the files | partial | lengths of the contributions add up | C171_partitions_partial (MsProps.v) | As C169. |
| C172 | filter= of load_sds loads the rows asked for | partial | mask as a function of the row number; induction over rows for increasing numbers | C172_filter_partial, C172_order_lost_refuted, C172_negative_refuted (MsProps.v) | Row numbers are not negative; order only for increasing numbers. Refuted: order and repetitions are lost; negative numbers count from the largest number. |
| C173 | Loading a list of paths gives one result per path | partial | induction over the list with placeholders | C173_list_of_paths_partial, C173_appended_refuted, C173_positions_refuted (MsProps.v) | Except when exactly one path is a file that was appended to. Refuted there: the directories are dropped; missing paths shift results. |
| C174 | rt.merge left and right: every row of the driving table once, with its first match | partial | ismember is the first partner of MergeSpec; left_join_partner; shared column assembly lemma | C174_left_right_partial, C174_one_row_each (MoProps.v) | Keys are compared as stored: NaN keys and keys of different types on the two sides are not modelled; ismember and unique32 by contract. |
| C175 | rt.merge inner: the left rows with a match, each with its first match | partial | filter of keys against flat_map of matches; unique keys make the first row the row itself | C175_inner_partial, C175_inner_duplicates_refuted (MoProps.v) | Holds for unique left keys; for others every row shows the first left row of its key (also proved). Refuted: with duplicate left keys a row does not show its own left row's values. |
| C176 | rt.merge outer: every key of either side once; refusals | partial | first occurrences of a concatenation split into those of the left and the new ones of the right | C176_outer_partial, C176_raises (MoProps.v) | As C174. |
| C177 | merge_asof matches every left row, sorted or not | partial | argsort a stable permutation: scatter inverts it, gather maps matches back; ties by stability | C177_merge_asof_partial (MoProps.v) | Integer on columns without invalids or overflow; tolerance is ignored by the code; alignmk is a contract on sorted columns, argsort a contract. |
| C178 | The match of merge_asof is determined by the data | proved | two extremal candidates are equal | C178_match_unique, C178_same_result (MoProps.v) |  |
| C179 | merge_asof raises exactly on bad arguments and refused disorder | proved | unfolding with issorted equivalent to sorted | C179_merge_asof_raises (MoProps.v) |  |
| C180 | Comparing a multi-key Categorical with a tuple | partial | row-wise and of the column masks is equality of tuples; distinct categories make the first hit the only one | C180_equal_tuple, C180_wrong_length, C180_order_partial, C180_order_missing_refuted, C180_not_ascii_refuted (MkProps.v) | Strings are plain character lists (no trailing NULs); comparing a string with a column of numbers is left to numpy. Refuted: order comparisons with a missing tuple, and == with a non-ascii string on byte columns raises. |
| C181 | Comparing a multi-key Categorical with several tuples | partial | C180 for every tuple of the list | C181_equal_tuples, C181_not_equal_tuples_refuted, C181_equal_nothing_refuted, C181_isin_nothing, C181_isin_tuple_refuted (MkProps.v) | Refuted: != with several tuples is True everywhere, isin of a list with one tuple raises. |
| C182 | from_bin and from_category are inverse | partial | positions in a list without repetitions; binary search lemmas of C29 | C182_multikey_roundtrip, C182_multikey_missing_refuted, C182_single_roundtrip (MkProps.v) | Refuted for several keys: a missing tuple gives a negative bin instead of an exception. |
| C183 | Assigning tuples to rows of a multi-key Categorical | proved | invariant over histories; C180 for the rows chosen | C183_assign, C183_rows_stay_valid, C183_missing_raises (MkProps.v) | Codes are unbounded integers here (see C25 for the dtype). |
| C184 | as_singlekey shows the same rows under one key | partial | fold over the key columns is the joined text; joined texts without the separator are injective | C184_multikey_partial, C184_distinct_partial, C184_collision_refuted, C184_base0_refuted, C184_single, C184_mapped (MkProps.v) | astype('S') is any function giving texts. Refuted: base 0 multi-key, and texts that collide because the separator is inside a key. |
| C185 | Mapped Categoricals are merged and compared only when their mappings agree | partial | at most one code per name and name per code; the inverted dictionary agrees | C185_merge, C185_rows_partial, C185_two_names_refuted, C185_compare (MkProps.v) | Refuted: a mapping that gives one code two names. Rows whose code had no name may get one. |
| C186 | iter_groups and groups give every row once, under its key | partial | slices of the packing are the rows of the groups; unfiltered histories keep the plain packing | C186_iter_groups_partial, C186_after_filter, C186_after_get_groupings_refuted (GiProps.v) | Refuted: after get_groupings(filter=...) the filtered rows stay missing. |
| C187 | Looping over a GroupBy shows every group's rows | partial | views of the contiguous columns are the rows of the group; the state of the shared object is modelled | C187_loop_partial, C187_collected_last, C187_collected_refuted (GiProps.v) | Refuted for collected pairs: one Dataset object is reused. |
| C188 | first_fancy, last_fancy, first_bool and last_bool find the first and last row of every key | partial | first and last entry of an increasing slice | C188_fancy, C188_bool_partial, C188_unused_first_refuted, C188_unused_last_refuted (GiProps.v) | Refuted for categories without a row. |
| C189 | get_group returns the rows of the group asked for | partial | positions among sorted and unsorted keys agree for all keys exactly if the lists agree | C189_gbu, C189_gb_partial, C189_gb_exact, C189_gb_refuted (GiProps.v) | from_category is the position among the categories (C182). Refuted for gb whose keys do not appear in sorted order. |
| C190 | Every array given to a grouped call gets its own column | partial | pigeonhole for the loop; numbers made for a name increase; decimal numbers are injective | C190_headers_partial, C190_headers_refuted (GiProps.v) | Refuted for names such as a (twelve times) and a1 (twice). |
| C191 | The columns of a grouped call are the stored ones, replaced or extended by the given ones | partial | dictionary laws | C191_call_columns, C191_getitem_partial, C191_getitem_refuted (GiProps.v) | Tuples of arrays, additional arguments and the apply family are not modelled. Refuted for GroupBys by an array. |
| C192 | The members of a Multiset always have the same number of rows | partial | invariant by induction over histories | C192_rows_partial, C192_refuses, C192_emptied, C192_single, C192_attribute_refuted, C192_empty_member_refuted, C192_in_place_refuted, C192_several_refuted (MuProps.v) | Proved for members with rows, attribute assignment to a Multiset with members, no change of members in place; each restriction has a refutation. |
| C193 | flatten(horizontal=True) puts every column of every Dataset side by side under its full name | partial | state of the loop is the side-by-side table of the leaves so far; induction over the tree; joined names are injective without the delimiter | C193_horizontal, C193_returns_partial, C193_unlabelled_refuted, C193_collision_refuted, C193_label_values_refuted (MuProps.v) | Soundness for all; returning is proved for Datasets at one depth with labels. Refuted: unlabelled, colliding intermediate names, label values are not compared. |
| C194 | flatten(horizontal=False) stacks the rows of every Dataset with the name it comes from | partial | state of the loop is the stack of the leaves so far; induction over the tree | C194_vertical, C194_returns_partial, C194_unlabelled_refuted (MuProps.v) | Soundness for all; returning needs labels or one level. decode undoes the encoding of names (of_name, decode are parameters). |
| C195 | The display of a Multiset shows every column once under the right names | partial | the consuming loops compute the groups in order of first appearance | C195_headers, C195_one, C195_nested_refuted, C195_copy_refuted (MuProps.v) | Refuted for nested Multisets and for copies. |
| C196 | Indexing a Multiset indexes every Dataset in it | proved | induction over the tree | C196_column, C196_rows_columns, C196_multiget (MuProps.v) | ms[rows] with masks and slices is reduced to lists of row numbers in range. |
| C197 | apply_schema reports exactly the deviations and sets the metadata | partial | induction over the object | C197_verdict_partial, C197_returns, C197_metadata_partial, C197_info_undescribed, C197_info, C197_only_last_refuted, C197_empty_schema_refuted (MuProps.v) | Proved for schemas without empty dictionaries. Refuted: only the last extra and the last missing column are reported; empty schemas count as missing. |
| C198 | The displayed rows are the head and the tail of the view, each cell from the right row | partial | the cells of every built column are a map over one list of shown positions; zipping maps gives rows | C198_rows, C198_positions, C198_returns_partial, C198_sorted_refuted (DpProps.v) | Formatting of values is a parameter. Returning is proved for unsorted Datasets; refuted for sorted ones whose sorted columns do not fit. |
| C199 | The displayed columns are a first and a last part of the columns, with dots exactly if some are left out | partial | induction over the fitting loop from both ends | C199_columns_partial, C199_once_partial, C199_no_dots_refuted, C199_twice_refuted, C199_hash_refuted (DpProps.v) | Restricted to Datasets without an unlabelled column '#'. Refuted: labels wider than the console hide all columns without dots; a sorted label is shown twice; a column '#' is never shown. |
| C200 | Footers are shown under their columns | partial | footers are a map over the same columns as the headings | C200_footers, C200_col_all_refuted (DpProps.v) | For the single table; refuted for COL_ALL, where footers are dropped. |
| C201 | All lines of a displayed table have the same length | partial | every cell is not longer than its column; sum over the line | C201_lines, C201_dots_refuted, C201_labels_refuted (DpProps2.v) | GB_PREFIX is not empty. The bound on the console is refuted when dots or several labels are shown; the general bound is proved. |
| C202 | Showing all columns shows every column once | partial | induction over the sets | C202_sets, C202_empty_refuted (DpProps2.v) | Refuted: an empty first table. |
| C203 | The headings of a displayed Multiset stay over their columns when columns are left out | partial | walks from both sides cut the covered list at the same places as the columns | C203_headings_partial, C203_raises_refuted (DpProps2.v) | Proved when a column is shown after the dots; otherwise it raises, proved for every such case. |
| C204 | The transposed display has one line per column with the first rows | partial | zip of three mapped lists; induction over the fitting of rows | C204_transposed_partial, C204_sorted_refuted, C204_summary_refuted (DpProps2.v) | For unsorted Datasets without summary columns; both restrictions have a refutation. |
| C205 | Repeated keys are shown as dots and can be read back | partial | induction over the rows | C205_read, C205_rounded_refuted (DpProps2.v) | For keys not written '.'; refuted that equal texts are equal keys. |
| C206 | Comparing two integer arrays compares the numbers | partial | the common type holds both types, so converting changes nothing | C206_arrays_partial, C206_uint64_refuted (UfProps.v) | Refuted for uint64 beside signed arrays. Elements that are the invalid of their type are not covered. |
| C207 | Comparing an integer array with an integer compares the numbers | partial | case analysis of the type found for array and number | C207_number_partial, C207_negative_refuted, C207_large_refuted (UfProps.v) | Integers of 64 bits of the same sign; refuted for negative numbers beside unsigned arrays and numbers over 64 bits. Elements that are the invalid of their type are not covered. |
| C208 | Integer arithmetic is done in a type that holds both operands and commutes | partial | the type found holds all values; final type, conversion and pairing are symmetric | C208_exact_partial, C208_commutes, C208_unsigned_refuted (UfProps.v) | Commuting is proved in general. Exactness without uint64 beside signed arrays, refuted for negative numbers beside unsigned arrays. |
| C209 | out= holds the result of the operation and ~ flips every bit | partial | converting to a type that holds the values changes nothing | C209_out_partial, C209_narrow_refuted, C209_invert, C209_invert_refuted (UfProps.v) | out= of a type that holds both operands; refuted otherwise. ~ without out=; refuted with it. |
| C210 | sum, min and max of an integer array | partial | folds over the list | C210_reduce_partial, C210_initial_refuted, C210_out_refuted, C210_dtype_refuted (UfProps.v) | Without initial=, dtype= and out=; each is refuted. |
| C211 | + appends strings | partial | map over the array; encoding is the identity on ASCII | C211_strings_partial, C211_bytes_refuted (UfProps.v) | Texts in ASCII; refuted for bytes. |
| C212 | A saved Dataset comes back with its columns, labels, sorted view and footers | partial | induction over the columns; the rest is computation | C212_columns_partial, C212_view_refuted, C212_footers_refuted (SvProps.v) | Columns, labels and keys of the view are proved; the order of the view and the footers are refuted. |
| C213 | A saved Categorical comes back showing the same | partial | distinct keys make setting all the items of a dictionary the identity | C213_keys, C213_mapping_partial, C213_two_codes_refuted, C213_two_names_refuted (SvProps.v) | Keys proved in general; mappings with distinct names and codes, refuted for others. |
| C214 | Reductions follow the axis asked for | partial | case analysis over the keywords, for any function of the elements | C214_axis_partial, C214_dtype_partial, C214_axis_0_refuted, C214_invalid_refuted (RdProps.v) | Proved for the function of a list of elements as a parameter, except axis=0 of two dimensions and invalid integers, which are refuted. |
| C215 | A reduction with a filter is the reduction of the elements it keeps, for every schedule of threads | partial | sums are a commutative monoid: any schedule sums a permutation of the positions | C215_filter_partial, C215_length (RdProps.v) | Exact arithmetic on rational numbers with NaN; rounding of floats is not modelled. |
| C216 | The reducing functions agree with the methods | partial | case analysis over the functions | C216_function_partial, C216_list_refuted, C216_ddof_refuted, C216_position_refuted (RdProps.v) | Keywords proved; refuted for lists and for the axis as second argument. |
| C217 | Masks combine position by position | partial | induction on the arguments over a memory of arrays | C217_masks, C217_inplace_partial, C217_twice_refuted, C217_same_refuted (RoProps.v) | Arrays as references into a memory, so the same array may occur twice; broadcasting an array of length 1 is not modelled. Refuted for an array given again in place, for one argument, and for errors in place. |
| C218 | label_filter keeps the rows of the labels asked for | partial | the mask of the rows as the union of the comparisons; selecting rows commutes with columns | C218_items_partial, C218_like_partial, C218_like_refuted, C218_array_refuted, C218_keywords (RoProps.v) | items as one value or a list proved; arrays of items, like= and regex= with str on bytes refuted. |
| C219 | asrows gives every row once, in order | partial | induction on the rows; the generators as a state machine | C219_rows, C219_iter_partial, C219_iter_ends, C219_iter_refuted (RoProps.v) | Rows kept for later are refuted for as_type='iter'. |
| C220 | Matrix totals are the sums of rows and columns | partial | sums over a matrix by rows and by columns agree (double induction) | C220_totals_partial, C220_y_partial, C220_stale_refuted, C220_names_refuted (RoProps2.v) | Columns of integers; proved for the first call on a Dataset; refuted for later calls. |
| C221 | Row masks test every column of numbers | proved | induction on the columns | C221_row_masks (RoProps2.v) |  |
| C222 | outliers names the extreme of every column | partial | induction on the elements with the best seen so far | C222_outliers_partial (RoProps2.v) | Columns without any number, and more than one column kept, are not modelled. |
| C223 | Bad rows and columns are left out of the totals | partial | cells partition the elements (permutation of filtered parts); masks and scatter by induction | C223_onepass, C223_multipass_partial, C223_bad_row_refuted, C223_filtered_refuted, C223_base0_refuted (BdProps.v) | Functions of one pass proved for any function that may be computed from parts; functions of several passes without the filtered, badcalc=True and numbers only for base index 1. Refuted: the two kinds differ on bad rows, the column Filtered, base index 0. |
| C224 | The bad rows and columns given are the ones shown as bad, and are not changed | partial | case analysis over the ways to give them; positions of names by induction | C224_marks_partial, C224_rows_refuted, C224_cols_refuted (BdProps.v) | Refuted for numpy arrays with showfilter=True; the order of sorted groups is not modelled. |
| C225 | Patterns are extracted from every string | partial | indexing the result for the unique strings by the inverse gives the result for all; names by induction over the named groups | C225_extract_partial, C225_raises, C225_str_refuted, C225_optional_refuted, C225_names_refuted, C225_mapped_partial, C225_empty_refuted (ExProps.v) | Proved for expressions whose groups take part in every match, with distinct names, and with a group if the strings are str. Refuted: groups that take no part give None, str without groups raises, equal names lose a group, empty arrays raise in regex_match and regex_replace. Python's re is a parameter. |
| C226 | A Dataset as a matrix can be read back | partial | columns by map; positions in the category values by induction | C226_matrix, C226_bool_refuted (ExProps.v) | As stated; bools are encoded, not kept (finding). Rounding of large integers to floats is not modelled. |
| C227 | isnan marks the invalid category | partial | bin of the invalid category by the inverse of C182; mappings by induction | C227_isnan_partial, C227_isfiltered, C227_bytes_refuted (NaProps.v) | One key and mappings; several keys and the change of the invalid category of numbers in the constructor are not modelled. Refuted: invalid_set with bytes. |
| C228 | The invalid category belongs to the Categorical | partial | induction over the history from its end | C228_history, C228_elements_partial, C228_take_refuted, C228_copy_refuted, C228_shift_refuted (NaProps.v) | Independence and histories proved; refuted: indexing, copy and shift_cat forget the invalid category, shift_cat the name of filtered elements. |
| C229 | total_sizes counts every memory once | partial | loop invariant: visited and pending Structs are the first and those seen, a permutation; termination by counting the Structs in memory | C229_sizes_partial, C229_order, C229_categories_refuted, C229_codes_refuted, C229_view_refuted, C229_shared_refuted, C229_cycle_refuted (SzProps.v) | Exact sizes proved, the physical size where columns of the same memory are counted with the same size. Refuted: shared category arrays, shared codes, views and shared Structs in the logical size, Structs inside themselves. |
| C230 | Searches in Structs see everything inside | proved | induction over the tree | C230_search, C230_flat, C230_any_all (SzProps.v) | Structs as finite trees (a Struct inside itself makes them recurse until Python stops); an element is the truth value Python gives it; a path is the list of its keys. |
| C231 | make_categoricals keeps every string | partial | induction over the tree and over the list of columns; converting twice changes nothing | C231_all, C231_listed, C231_errors_partial, C231_atomic_refuted (CvProps.v) | Structs as finite trees. Names that are neither columns nor attributes raise before any change; refuted: names of methods raise half-way. |
| C232 | Categories leave and enter Structs whole | partial | cutting a prefix is injective on the names that begin with it; every step is a map over the columns | C232_struct_partial, C232_collision_refuted, C232_multi_refuted, C232_matlab_partial, C232_order_refuted, C232_method_refuted (CvProps.v) | The constructor of the Matlab Categorical is a parameter. Refuted: reserved names that collide once capitalised, several keys left out silently, names of xtra that are columns of codes, names of methods. |
| C233 | The clock of a TimeSpan says the TimeSpan | partial | rounding to the nearest cannot cross a whole second: the gap is more than half a unit in the last place | C233_clock_partial, C233_injective_partial, C233_precision_refuted, C233_long_refuted (TdProps.v) | Below 2^62 nanoseconds that are whole; the division of floats is modelled to the bit. Texts are modelled by the numbers in them. Refuted: fewer than nine decimals show the wrong digits; longer TimeSpans can be shown one second too long. |
| C234 | hhmmss and units of TimeSpans are right | partial | bounds of rounding and of division with remainder | C234_hhmmss_partial, C234_negative_refuted, C234_unit_partial, C234_round_refuted (TdProps.v) | hhmmss proved for TimeSpans that are not negative. Refuted: negative ones; units chosen before rounding (60.000s). The decimals of the unit are those of the exact quotient. |
| C235 | apply calls the functions on every column | partial | induction over the functions, names fresh in the results | C235_one_partial, C235_many_partial, C235_raises, C235_lambdas_refuted, C235_method_refuted (ArProps.v) | Proved for functions with distinct capitalized names that are not names of methods of Dataset. Refuted: of two lambdas one result is left; with check_op a function with the name of a method is ignored. Names are ASCII; the new columns have the old length. |
| C236 | Tables of percentages are shares | partial | induction over the keys: each update meets its own column only, and TotalRatio is divided last | C236_cells_partial, C236_sums_partial, C236_name_refuted (ArProps.v) | Numbers are rationals (no rounding, no division by zero); the aggregation, label columns and remove_blanks are not modelled. Refuted: a category called Total is lost with include_total. |
| C237 | accum_cols gives a column for every value | partial | induction over the four lists, names fresh in the results | C237_columns_partial, C237_defaults_partial, C237_short_refuted, C237_letter_refuted (CpProps.v) | The aggregation is a parameter; remove_blanks is not modelled; names are distinct and not those of labels. Refuted: values without a name or filter are left out silently; the letter may be empty or pP. |
| C238 | Popped columns leave the Struct and nothing else does | partial | deletion of distinct names is a filter; permutation | C238_one, C238_many_partial, C238_everything, C238_raises, C238_numbers_refuted (CpProps.v) | One column, lists of names and [:] proved. Refuted: lists of numbers, masks and slices raise TypeError. Sorted Datasets are not modelled. |
| C239 | any and all of a Struct look at every element | partial | induction over nested items | C239_truth_partial, C239_dict_refuted (CpProps.v) | Proved without dictionaries in the Struct. Refuted: of dictionaries the keys are tested. Iterators, which any consumes, are not modelled. |
| C240 | merge_lookup in place keeps the Dataset and adds the columns of the lookup | proved | the lookup without left columns has the same indices; induction over the assignments, names fresh | C240_inplace, C240_lookup (MiProps.v) | The checks of suffix, suffixes and columns_left against inplace, copy=False and the checks of the dtypes of the keys are not modelled. |
| C241 | nunique counts the distinct values that are not missing | partial | insertion sort without repetitions is ascending; the sentinel is the least or the greatest | C241_nunique_partial, C241_bools_refuted, C241_bools, C241_dates_refuted (NuProps.v) | Proved for integers, floats and strings. Refuted: False is not counted, the missing date is. The grouping behind unique is in C++ and taken to give the distinct values sorted, NaN once and last; complex numbers and objects are not modelled. |
| C242 | bitcount counts the bits that are set | partial | induction over the binary digits | C242_bitcount_partial, C242_negative_refuted (NuProps.v) | Proved for integers that are not negative. Refuted: of a negative scalar the bits of the absolute value are counted. The count over arrays is in C++ and taken to be that of two's complement. |
| C243 | Nothing is written over without the consent of the user | partial | the path looked for is the path written; induction over the answers | C243_asks_partial, C243_structs_partial, C243_directories, C243_overwrite, C243_enter_refuted, C243_capitals_refuted, C243_separator_refuted (OvProps.v) | Proved for directories; for files when no answer is empty, Yy or Nn, names have no separator and .sds no capitals. Refuted otherwise: just Enter means yes, and x.SDS or the name a/b is looked for elsewhere than written. Shared memory, append, onefile and dots in paths are not modelled. |
| C244 | What is saved under different names does not collide | partial | cancellation of the common parts of paths | C244_names_partial, C244_structs_refuted, C244_arrays_refuted (OvProps.v) | Proved for Datasets whose names do not end with .sds. Refuted for Structs without nested containers, whose name is ignored, and for arrays named a/b and a!b. |
| C245 | key_search finds every item whose name matches | partial | induction over nested items; the search as lists of names | C245_search, C245_flat, C245_dots_refuted (KsProps.v) | Proved for the paths as lists of names; refuted: a name with a dot gives the dotted path of another item. The regular expression is a parameter; Structs that contain themselves are not modelled. |
| C246 | A mapping Categorical translates names and codes both ways | partial | induction over the pairs that are filled in | C246_inverse_partial, C246_raises, C246_codes_refuted (KsProps.v) | Proved for different names and codes, and when it raises. Refuted: names with one code are accepted with a warning, and only the last comes back. |
| C247 | Naming a Categorical keeps its keys | partial | the new names are distinct, decimal numbers are injective | C247_keys_partial, C247_lost_refuted (NmProps.v) | Proved unless a key has the numbered name of another; refuted then: a key is lost. |
| C248 | Columns of h5 data are not lost to name clashes | partial | pigeonhole: the loop ends at a free name; escaping is injective | C248_columns_partial, C248_lost_refuted, C248_empty_refuted (NmProps.v) | Proved without names that begin with an underscore or are attributes of Datasets; no keyword ends with an underscore. Refuted otherwise: columns are lost, and names of underscores become empty. |
| C249 | Values of a csv file stay in their rows | partial | each version's columns are the picked cells of the rows; equal lengths force full rows by counting | C249_table_partial, C249_tagged_partial, C249_empty_line_refuted, C249_twice_refuted, C249_no_rows_refuted (CsvfProps.v) | Proved for distinct names that are neither keywords nor attributes of Datasets; a name with a leading underscore is an error. Refuted otherwise: of equal names, or of sum and Sum, one column is kept, and an empty line, or a file without rows, is an error in some versions only. Version 4 (pandas) is not modelled. |
| C250 | Datasets kept as directories of numpy files come back | partial | stripping inverts the extension, dict building on distinct names is map, permutations | C250_roundtrip_partial, C250_order_refuted, C250_names_refuted (CsvfProps.v) | Proved for column names without the text .npy and without path separators, up to the order of the columns. Refuted: the order is that of the listing, and names with .npy lose columns or are changed. |
| C251 | Reductions over rows see each row's own values | partial | induction on the columns: each tile of codes picks one value of its column | C251_rows_partial (GbrProps.v) | Proved for Datasets with a column of the kind asked for. Not modelled: the conversion of the columns to one dtype, filters, and the compiled grouping itself. |

## 7. Findings

### Proved in the model (theorems `_refuted`)

| theorem | what it shows |
|---|---|
| C101_property_name_refuted (TabProps.v) | Finding: assigning to the name of a property, [ds.size = [7]], stores the value unchecked as a column "Size": the dataset then has a column of another length and a wrong column count. |
| C102_empty_dataset_refuted (TabProps.v) | Finding: a failed first assignment fixes the row count of a dataset without columns, so that a later valid assignment of another length is refused. |
| C102_several_columns_refuted (TabProps.v) | Finding: [ds[['a','b']] = other] with too few columns on the right replaces the first column before it raises. |
| C103_renamed_column_lost_refuted (TabProps.v) | Finding: two names that are both stored under the same capitalised name: the dictionary's first column is lost without an error. |
| C105_swap_refuted (TabProps.v) | Finding: [ds[0:2, ['a','b']] = ds[0:2, ['b','a']]] does not swap the columns: the slices on the right are views, column b is read after column a was overwritten. |
| C106_shared_refuted (TabProps.v) | Finding: [ds.putmask(mask, ds[['b','a','C']])], the same columns in another order, does not exchange a and b under the mask. |
| C107_shared_labels_refuted (TabProps.v) | Finding: a row selection or shallow copy shares the label objects with the original: setting labels on ds[[0], :] changes the labels of ds. |
| C108_not_equal_missing_refuted (TabCmpProps.v) | Finding: [a != b] is False everywhere in a column that only one side has, just as [a == b]: != is not the negation of ==. |
| C109_exact_refuted (TabCmpProps.v) | Finding: equals(exact=True) ignores column names, and a one-row or one-column right-hand side is broadcast: datasets of different shapes are reported as exactly equal. |
| C109_extra_nan_column_refuted (TabCmpProps.v) | Finding: a dataset equals one that has a further column, when that column is all NaN. |
| C10_column_count_refuted (ItemsProps.v) | The full claim fails: assigning to an attribute name of the class stores a column under the capitalised name without counting it. |
| C112_isortrows_after_filtered_refuted (AggProps.v) | isortrows of unsorted keys counts the filtered entry as a key once that has been shown. |
| C112_sort_after_filtered_refuted (AggProps.v) | keys(sort=True) on unsorted keys, after the filtered entry has been shown once: the filtered entry is sorted in with the keys, and from then on the first key is missing instead of it. |
| C113_apply_reduce_showfilter_refuted (AggProps.v) | apply_reduce with showfilter=True always fails: the key columns are added without the entry for the filtered rows. |
| C114_apply_reduce_refuted (AggProps.v) | apply_reduce(transform=True) on a GroupBy with sorted display goes wrong in the same way. |
| C114_base_refuted (AggProps.v) | A Categorical with base index 0 (or none, as with an enum): transform=True gives every row the value of the next group, and rows of the last group an invalid value. |
| C114_filtered_row_refuted (AggProps.v) | A row that belongs to no group gets the value of the last group with transform=True. |
| C114_flag_refuted (AggProps.v) | The property transform (gb.transform.sum()) on a GroupBy with sorted display: the sums are put in the order of the sorted keys but fetched by the unsorted codes. Here the keys are 30, 10, 20 with sums 11, 7, 3, and the rows of key 30 get 7. |
| C114_showfilter_refuted (AggProps.v) | A GroupBy over an ordered Categorical, with transform=True and showfilter=True: the codes count the filtered bin but the translation does not, so every row gets a wrong group's value. |
| C115_empty_group_refuted (AggProps.v) | A GroupBy with sorted display fails when the filter leaves a group without rows. |
| C115_single_rows_refuted (AggProps.v) | When every group has one row, a function that returns its rows is taken for a reduction: the result is in the order of the keys, not of the rows. |
| C116_filtered_column_refuted (Acc2Props.v) | The column of the rows without column key is not brought into the order of the row keys: with sorted row keys it stands beside the wrong keys (the values of 30, 10, 20 against the keys 10, 20, 30). |
| C116_names_refuted (Acc2Props.v) | A column key whose text is the name of the key column replaces the row keys. |
| C118_apply_reduce_filter_refuted (Acc2Props.v) | apply_reduce: the totals ignore the filter given to the constructor (the first row is filtered out but its value 1 is the total of 30 and of the table). |
| C118_base0_refuted (Acc2Props.v) | With Categoricals of base index 0 the codes are shifted once more, so each total stands one key too far and the last group's rows are in no total. |
| C118_sorted_refuted (Acc2Props.v) | The totals of first, last, median, .. are left in the order in which the keys were found, although the table is sorted: 1, 2, 3 (the first of 30, 10, 20) beside the keys 10, 20, 30. |
| C118_unshown_rows_refuted (Acc2Props.v) | These totals also count rows that are in no shown cell: the row total of 30 and the grand total are the last value 6 of a row without column key, which the table does not show. |
| C119_sorted_refuted (Acc2Props.v) | With sorted keys the code of a row is looked up in the sorted keys: the first row (30, 7) reads (10, 5). |
| C121_filtered_sorted_refuted (Acc2Props.v) | count(showfilter=True) of sorted rows adds the Filtered column in the wrong order: the row total of 10 is 3 although only two rows have that key. |
| C122_filter_refuted (ShapeProps.v) | Finding: [pivot] with a filter that drops two or more rows always raises "Duplicates exist": the check counts the rows of every bin, also of the bin of the filtered rows, although those rows do not appear in the table. |
| C122_names_refuted (ShapeProps.v) | Finding: [pivot] names the columns by the texts of the keys joined by underscores; keys whose texts are joined to the same name ("a","b_c" and "a_b","c", or a number and a string), or to the name of a label column, overwrite one another silently. |
| C123_blank_refuted (ShapeProps.v) | Finding: the row count is not kept when a cell of a row that appears in the table holds a value that looks blank (0, "" or NaN): [melt] with trim=True drops it, without trim every missing combination comes back as a row, so neither call restores the rows. |
| C124_lost_refuted (ShapeProps.v) | Finding: [transpose] names the new columns by the texts of the labels; two rows with the same label, or a label equal to the header ("Col"), give one column, and the other row is silently lost. |
| C125_unchanged_refuted (ShapeProps.v) | Finding: [reduce] with axis=1 (so also ds.sum(axis=1) and the like) changes the dataset it is called on: the columns are replaced by columns of the matrix, of the common type of all of them (integers become floats). |
| C125_whole_refuted (ShapeProps.v) | Finding: [reduce] with axis=None over a dataset that has a column of strings (or any other column that is not computable) applies the function to the results of the columns instead of to the values: the count of 2 columns of 3 rows is 2, and std is the spread of the columns' spreads. |
| C126_other_refuted (ShapeProps.v) | Finding: [any] and [all] with axis=1 silently leave out columns that are neither numbers of the first 14 dtypes nor strings (complex, float16, datetime64, objects), although axis=0 and axis=None count them: a dataset of one complex column answers any(axis=None) = True and any(axis=1) all False. |
| C127_names_refuted (ShapeProps.v) | Finding: [one_hot_encode] sets the columns by their names "column__category" without looking: an existing column of that name is overwritten, and the columns of 'a' with category 'b__c' and of 'a__b' with category 'c' are the same column. |
| C128_label_stays_refuted (FootProps.v) | Finding: a column removed takes its footer values with it, but the labels stay: the footer row of a label whose only column was removed is still there, empty. |
| C128_remove_twice_refuted (FootProps.v) | Finding: footer_remove with a label given twice raises KeyError, after the values have been removed. |
| C129_shallow_refuted (FootProps.v) | Finding: selecting columns or rows, or copy(deep=False), makes a Dataset whose columns share their attribute object with the first one: setting a footer on the copy, or removing one, changes the first Dataset's footers. |
| C129_sort_copy_refuted (FootProps.v) | Finding: sort_copy of a Dataset with any footer raises AttributeError: it copies every value of the dictionary of footers, and these are always None. |
| C130_right_refuted (CutProps.v) | Finding: right=False does not make bins that include their left and exclude their right edge: a value on the right edge stays in the bin, the first edge is in no bin, and a value above the last edge gets a code one past the categories instead of 0. |
| C130_short_filter_refuted (CutProps.v) | Finding: a filter shorter than the array is not refused: the rows past its end disappear. |
| C130_two_equal_refuted (CutProps.v) | Finding: two equal edges are refused unless they are the only two: then the one bin holds just that value. |
| C133_other_names_refuted (MargProps.v) | Finding: if the two Datasets have differently named data columns at one place, the column of the left one is left as it is (there is no such column on the right), but its footer is combined with the footer of the right one's column at that place: the column YY is 4, 5, 6 with the total 15 + 1. |
| C133_unlike_refuted (MargProps.v) | Finding: with a different number of footer rows or summary columns the totals of the result are not the totals of its columns: the summary column is not combined, and the footers are dropped. |
| C134_unknown_margin_refuted (MargProps.v) | Finding: set_margin_columns accepts the name of a table that was never given; the error (KeyError) comes later, from every gen that follows. |
| C136_all_blank_refuted (MargProps.v) | Finding: with remove_blanks=True and nothing but zeros, the column TotalRatio is itself removed, and then looked up: the call raises a KeyError (by table or by row) instead of returning an empty table. |
| C138_all_blank_refuted (MargProps.v) | Finding: the rows of blanks are dropped, except from a Dataset of nothing but blanks: it loses all its data columns and keeps all its rows. |
| C139_exclamation_mark_refuted (SdsProps.v) | Finding: a nested Dataset whose name contains "!" is saved without an error and is missing from the loaded Struct; only the part of the name after the last "!" is checked for invalid characters. |
| C139_labels_are_kept_refuted (SdsProps.v) | Finding: the labels of a Struct with nested containers are saved in _root.sds but are not set on the loaded Struct, because the items are put in order by making a new Struct. |
| C139_order_of_containers_is_kept_refuted (SdsProps.v) | Finding: the order of the containers in a Struct that holds only containers is not saved (such a Struct has no file); it comes back in the order in which the directory happens to be listed. |
| C139_sds_ending_refuted (SdsProps.v) | Finding: a nested container whose name ends in ".sds" is written to the file of the container without that ending: here the Datasets "a" and "a.sds" are saved without an error, "a" comes back with the data of "a.sds", and "a.sds" is missing. |
| C13_col_map_atomic_refuted (ItemsProps.v) | A call that raises may leave some columns renamed. |
| C13_col_map_attributes_refuted (ItemsProps.v) | Column attributes do not follow the data around a cycle. |
| C13_col_map_refuted (ItemsProps.v) | The full claim fails. |
| C140_missing_file_is_reported_refuted (SdsProps.v) | Finding: a missing file is not reported. Below the root the container comes back as the value None, at the root it is left out. |
| C141_new_data_is_loaded_refuted (SdsProps.v) | Finding: below the root an old container even replaces newly saved data: here the new array b.a is hidden by the Dataset that b.a was in the old contents. |
| C141_old_contents_are_gone_refuted (SdsProps.v) | Finding: saving over an existing directory does not remove its files. Here a Struct whose "b" is an empty Struct is saved over one whose "b" held a Dataset; the Dataset is loaded again. |
| C142_bulk_load_is_file_by_file_refuted (SdsProps.v) | Finding: when an array file a.sds and a file a!b.sds lie in one directory, the bulk load gives every later item the data of another file, without an error: here c is loaded with the contents of a!b. |
| C144_dataset_over_array_refuted (SdsProps.v) | Finding: a Dataset saved into the directory under the name of an array of the saved Struct succeeds, but the old array is loaded. |
| C144_struct_saved_into_directory_refuted (SdsProps.v) | Finding: a flat Struct saved into the directory of a saved Struct is not loaded with it, although a Dataset is: the root file is looked for in the directory dir/k.sds. |
| C145_last_save_is_loaded_refuted (SdsProps.v) | Finding: after a Struct with nested containers was saved to a path, a Dataset saved to the same path goes to another file, and loading the path gives the old Struct. |
| C146_exclamation_mark_refuted (SdsProps.v) | Finding: the arrays of a Categorical are looked up by the part of their name before the first "!". When the name of the Categorical itself contains "!", it is read back without its categories, and a Categorical with that first part as its name gets them in addition to its own. |
| C147_sections_have_their_names_refuted (SdsProps.v) | Finding: the names of the sections are kept only when the sections differ in length or kind: two Datasets appended as "a" and "b" come back as one Dataset when they have the same number of rows, with the columns of "b" renamed. |
| C148_flatten_keeps_files_refuted (SdsProps.v) | Finding: before moving files sds_flatten checks that their new names are free, but not the name dir.sds of the moved root file: a file of that name in the base directory is overwritten and lost. |
| C149_arrow_values_are_kept_refuted (ArrowProps.v) | Finding: FastArray.from_arrow(pa.array([-128, None], int8), auto_widen=True) is int16 [-128, -128]: the nulls of a widened array are filled with the invalid value of the old type, which is an ordinary value of the new type (rt_fastarray.py:5809-5815), so the null becomes the number -128. |
| C14_col_str_replace_refuted (ItemsProps.v) | The full claim fails: colliding names silently drop a column. |
| C150_arrow_strings_round_trip_refuted (ArrowProps.v) | Finding: pyarrow tells an empty string from a null, riptable does not: both are read as the empty string, so they come back as null (or, by default, both as the empty string); trailing NULs are lost too. |
| C150_fixed_bytes_slice_refuted (ArrowProps.v) | Finding: FastArray.from_arrow of a slice of a fixed_size_binary array without nulls returns the whole array that was sliced: the buffer is read from its start to its end (rt_fastarray.py:5888-5891), so the length and the values are those of another array. |
| C151_dictionary_array_refuted (ArrowProps.v) | Finding: a pyarrow dictionary array with uint8 indices and 256 entries that uses the last entry and has nulls is read with the nulls turned into the last entry, since the invalid value of uint8 is 255 and from_arrow widens the indices and fills the nulls with 255 (rt_categorical.py:5548; see C149). |
| C151_longer_dictionary_refuted (ArrowProps.v) | Finding: a pyarrow dictionary array with int8 indices whose dictionary has more than 128 entries and which uses the index 127 cannot be read: the test whether the indices must be widened compares the number of entries for equality only (rt_categorical.py:5590), so 127 + 1 wraps to -128 and the array is refused. |
| C151_multikey_round_trip_refuted (ArrowProps.v) | Finding: a Categorical of two or more keys cannot be read back from pyarrow at all: from_arrow hands the list of key arrays to the constructor, which refuses a list of arrays (rt_categorical.py:5691, 1979-1983). |
| C151_ordered_flag_refuted (ArrowProps.v) | Finding: whether the dictionary is ordered is not read from pyarrow: the flag is computed from the categories (rt_grouping.py:565-628), so an unordered Categorical with sorted categories comes back ordered. |
| C152_mapping_round_trip_refuted (ArrowProps.v) | Finding: a code that has no name (shown as !<7>) comes back with the empty name, and is shown as an empty string (rt_categorical.py:5838-5860 and the TODO in 5636-5638). |
| C153_arrays_are_exact_refuted (WhereProps.v) | Finding: int64 and float64 arrays, or int64 and uint64 arrays, are converted to float64: the int64 values chosen are rounded, without a warning (rt_numpy.py:360-374). |
| C153_one_element_keeps_invalid_refuted (WhereProps.v) | Finding: with a condition of one element where hands over to np.where, which does not know invalid integers: where([True], int32 array with an invalid, float64 array) gives -2147483648.0, where with a longer condition gives NaN (rt_numpy.py:3060-3062). |
| C153_python_numbers_are_chosen_refuted (WhereProps.v) | Finding: the type of a python integer is the smallest that can store it, counting the value reserved for "invalid"; where(mask, 255, 0) therefore is a uint8 array in which every 255 reads as invalid (rt_numpy.py:317 calls min_scalar_type without promote_invalid; the same with 65535, -128, ...). |
| C154_base_index_0_is_chosen_refuted (WhereProps.v) | Finding: the result is built with the default base index 1 from codes that count from 0: where of two Categoricals of base index 0 shows the neighbouring category, and nothing for category 0 (rt_numpy.py:3024-3027). |
| C154_mapped_is_accepted_refuted (WhereProps.v) |  |
| C154_mapped_is_chosen_refuted (WhereProps.v) | Finding: for mapped Categoricals the codes are taken for positions, from 1, in the list of names: with the mapping {2: 'a', 1: 'b'} rows of code 2 show 'b' after where, and a code above the number of names is refused, although both arguments have the same mapping (rt_numpy.py:3024-3027). |
| C155_numbers_are_stored_or_refused_refuted (WhereProps.v) | Finding: a number too large for the type of the array wraps around silently: int8 array, arr[i] = 1000 stores -24; -128 or 384 store "invalid" (rt_fastarray.py:1280-1281). |
| C156_no_data_is_lost_refuted (StProps.v) | Finding: when two Structs have an item of one name but of different types (an array and a Categorical, say), the type that was seen last keeps its data and the data of the others is dropped; there is only a warning (rt_hstack.py:336-342, 376-378). |
| C157_dictionary_is_stacked_refuted (StProps.v) | Finding: the type of the codes is chosen by the number of rows, not by the number of arrays: 128 or more arrays with fewer than 100 rows in all need codes that do not fit int8 (rt_hstack.py:198-204). |
| C158_equal_structs_show_the_same_refuted (StProps.v) | Finding: arrays are compared by the CRC of their bytes alone (rt_struct.py:3886): Categoricals with the same codes but other categories, dates and integers, int64 and float64 arrays with the same bytes are "equal". |
| C158_equals_answers_refuted (StProps.v) | Finding: when an item is a scalar in one Struct and a Struct in the other, equals does not answer False but raises (AttributeError or TypeError, rt_struct.py:3893-3897). |
| C158_struct_equals_itself_refuted (StProps.v) | Finding: a NaN scalar makes a Struct different from itself (arrays with NaN are equal, by their bytes). |
| C159_equal_to_itself_refuted (StProps.v) | Finding: a Struct with an empty array is not == to itself: the truth value of the empty comparison is False (rt_struct.py:901). |
| C159_not_equal_means_different_refuted (StProps.v) | Finding: st1 != st2 reports True for an array only if all its elements differ: two Structs that are not equal can be "not different" as well (rt_struct.py:898-906, 918-919). |
| C159_scalars_are_compared_refuted (StProps.v) | Finding: comparing a Struct holding the int 1 with one holding the float 1.0 raises, because int's own method does not know floats (rt_struct.py:892-897). |
| C15_name_with_bang_refuted (FlattenProps.v) |  |
| C15_name_with_separator_refuted (FlattenProps.v) |  |
| C160_base0_refuted (GqProps.v) | Finding: count_uniques stores its counts by the codes that the Categorical shows. With base index 0 these start at 0 and the first entry is cut off as the one for filtered rows: every group gets the count of the next group in order of appearance, and the last one 0. |
| C160_mapping_refuted (GqProps.v) | Finding: for a Categorical made from a mapping count_uniques stores the counts by the codes of the mapping, while the keys are shown in another order: the counts belong to other keys (codes 3, 1, 2), and codes larger than the number of groups raise an error. |
| C160_showfilter_refuted (GqProps.v) | Finding: with filter= and showfilter=True the entry of the filtered rows does not count the rows that the filter takes out. |
| C162_truncated_refuted (GqProps.v) | Finding: q is turned into a whole number of billionths with int(), which cuts off: percentile(2.9) becomes 0.028999999, and of the values 0..1000 the answer is the midpoint of 28 and 29 instead of 29 (2.9 is 6530219459687219 / 2^51; the position of the exact quotient 0.029 is 29). |
| C163_clash_refuted (GqProps.v) | Finding: a key column whose name is that of a column with a quantile suffix makes the whole calculation fail. |
| C165_filled_with_days_refuted (TmProps.v) | Finding: an invalid span of days plus a time (or plus a time span) is filled with the invalid of 32-bit integers, which is a valid time (2.1 seconds before 1970) and a valid time span; the other order gives an invalid. Code: NAN_DATE of DateSpan is used for results of nanosecond classes (rt_datetime.py:1069-1071, 2925-2951). |
| C165_one_element_refuted (TmProps.v) | Finding: with arrays of one element the invalid of the other operand is lost: a date plus an invalid span of days is some day in the far past, and a span of zero or fewer days plus anything is invalid. Code: the one-element path of the mask helper (rt_datetime.py:550-554) looks only at whether the first element of the left operand is positive. |
| C165_timespan_one_refuted (TmProps.v) | Finding: a time span plus an invalid span of days of length 1 is valid. Code: for a mask of length 1 the test is whether the mask itself is a NaN (rt_datetime.py:6877-6879). |
| C166_days_as_nanos_refuted (TmProps.v) | Finding: a time span minus a span of days subtracts the number of days as if it were nanoseconds, and so does -= (and +=). Code: TimeSpan.__sub__ does not scale a DateSpan (rt_datetime.py:6795-6799; __add__ and __rsub__ do), and += is that of the number array. |
| C166_zone_refuted (TmProps.v) | Finding: for times of another zone, date - time and time - date are not negatives of each other: the first takes the date as midnight in the zone of the time, the second as midnight UTC. Code: Date.__sub__ (rt_datetime.py:2331-2333), DateTimeNano.__sub__ (5840-5846). |
| C168_one_element_refuted (TmProps.v) | Finding: += on one invalid element makes it valid. Code: the one-element path of the mask helper looks at the left operand after it was overwritten (rt_datetime.py:552, 1046, 4084-4088). |
| C168_overwritten_refuted (TmProps.v) | Finding: date += date and date -= date raise, but only after the array was overwritten by the sums; span of days -= date too. Code: the calculation (rt_datetime.py:1045-1046) runs in place before the classes are checked (1049). |
| C169_bang_in_name_refuted (MsProps.v) | Finding: a Categorical column whose name contains "!" is saved, but its categories are looked up under the part of the name before the first "!" (rt_sds.py:1404-1417): loading such files stacked raises. |
| C169_first_class_wins_refuted (MsProps.v) | Finding: the class data of the first file that has any is used for all files (rt_sds.py:1391-1449): a column that is of another class or zone in a later file, or a plain number there, is shown with the class and zone of the first file. |
| C170_mixed_classes_refuted (MsProps.v) | Finding: a column that is a date in the first file and a Categorical in a later one is not refused (rt_sds.py:1404-1449 looks only at the class of the first): the codes of the Categorical come back as dates, its labels are lost. |
| C172_negative_refuted (MsProps.v) | Finding: negative row numbers count from the largest row number in the filter, not from the end of the rows: [0, -1] loads the first row only, and [-1] alone raises. |
| C172_order_lost_refuted (MsProps.v) | Finding: filter= with row numbers is turned into a mask (rt_sds.py:1512-1533): their order is lost and repeated rows come once. |
| C173_appended_refuted (MsProps.v) | Finding: if exactly one path of the list is a file and that file was appended to, its Dataset alone is returned (rt_sds.py:1216-1221, 2294-2313): the directories of the list are dropped and the result is no list. |
| C173_positions_refuted (MsProps.v) | Finding: with mustexist=False the results of a list say nothing about which paths were missing: later results move up. |
| C175_inner_duplicates_refuted (MoProps.v) | Finding: rt.merge(how='inner') with a key that occurs twice on the left: both result rows show the values of the first left row, the second left row is lost. |
| C17_filtered_rows_determined_refuted (FillProps.v) | Not in place, a row in no group (a filtered row) keeps whatever the uninitialised result array contained: the result is not determined by the inputs. |
| C180_not_ascii_refuted (MkProps.v) | Finding: a tuple with a string that is not ascii makes even == raise when the key column holds byte strings, although the answer is known: no row has that key. |
| C180_order_missing_refuted (MkProps.v) | Finding: an order comparison with a tuple that is not a category treats it as smaller than every key: c > (k1, ..., kn) is True in every row, also the filtered ones and whatever the keys are, while the same comparison of a single key finds the place of the missing value. |
| C181_equal_nothing_refuted (MkProps.v) | Finding: comparing with an empty list of tuples raises, for every comparison, although isin of the empty list is False everywhere. |
| C181_isin_tuple_refuted (MkProps.v) | Finding: isin([t]), and c[[t]] which calls it, raises for a tuple with a string in it, even when t is the key of some rows. |
| C181_not_equal_tuples_refuted (MkProps.v) | Finding: c != [t1, t2] is not the negation of c == [t1, t2]: with two different tuples it is True in every row. |
| C182_multikey_missing_refuted (MkProps.v) | Finding: from_category of a tuple that is not a category returns -1 (base index 1; -2 for base index 0) instead of raising as documented and as it does for a single key. |
| C184_base0_refuted (MkProps.v) | Finding: for several keys with base index 0 the codes are not moved to base index 1: the rows of the first category become filtered and every other row shows the category before its own. |
| C184_collision_refuted (MkProps.v) | Finding: with the separator inside keys the single key has the same category twice: the rows show the same text, but c == text is True for one of them only. |
| C185_two_names_refuted (MkProps.v) | Finding: with a mapping that gives one code two names, which the constructor allows with a warning, merging can change what the rows show, depending on the order of a Python set. |
| C186_after_get_groupings_refuted (GiProps.v) | Finding: get_groupings(filter=...) is not a query: iter_groups, groups, first_fancy and the for loop over the GroupBy called afterwards leave out the rows that did not pass that filter. |
| C187_collected_refuted (GiProps.v) | Finding: the for loop yields one and the same Dataset object every time; list(gb) or dict(gb) pairs every key with the rows of the last group. |
| C188_unused_first_refuted (GiProps.v) | Finding: a category that no row has gets the first row of the next category in first_fancy, or the invalid if there is none; then first_bool raises. |
| C188_unused_last_refuted (GiProps.v) | Finding: if the first category has no row, last_bool marks a row that is filtered. |
| C189_gb_refuted (GiProps.v) | Finding: ds.gb('key').get_group(k) returns the rows of another key, and gb.as_categorical() shows wrong keys, whenever the keys do not first appear in sorted order: the group numbers belong to the unsorted keys, the categories are sorted. |
| C18_skipna_false_refuted (FillProps.v) | but cummax(skipna=False) of int8 [1, inv, 2] is [1, inv, 2], and cummin of uint8 [2, inv, 1] is [2, inv, 1] |
| C190_headers_refuted (GiProps.v) | Finding: twelve arrays named a and two named a1 give two columns called a11; one array is lost. |
| C191_getitem_refuted (GiProps.v) | Finding: grouped by an array that is no column of the Dataset (ds.gb(array)), gb['x'] raises, although x is a column. |
| C192_attribute_refuted (MuProps.v) | Finding: the members of a Multiset can have different numbers of rows: assigning an attribute to an empty Multiset (ms = Multiset(); ms.A = d1; ms.B = d2) never sets the number of rows, so that the second member is not checked; |
| C192_empty_member_refuted (MuProps.v) | Finding: a member without rows is accepted before, but not after, one with rows: Multiset({A: empty, B: d}) works, Multiset({B: d, A: empty}) raises. |
| C192_in_place_refuted (MuProps.v) | Finding: filtering a member in place leaves a Multiset whose members differ in their rows and whose own number of rows is out of date. |
| C192_several_refuted (MuProps.v) | Finding: ms[[a, b]] = [d] sets only a and does not say that a value is missing; and when one of the assignments raises, the ones before it stay. |
| C193_collision_refuted (MuProps.v) | Finding: a column of a later Dataset may not have the name an earlier column was given, although the final names all differ: {A: {x}, B: {A_x}} raises. |
| C193_label_values_refuted (MuProps.v) | Finding: the values of the labels are not compared: a row of the result may hold values of rows with other labels. |
| C193_unlabelled_refuted (MuProps.v) | Finding: without labels flattening horizontally always raises (unless there are no rows): the first Dataset is concatenated with an empty one, which has 0 rows. |
| C194_unlabelled_refuted (MuProps.v) |  |
| C195_copy_refuted (MuProps.v) | Finding: a copy does not have the keys of the grouping: they are displayed as further columns of every Dataset. |
| C195_nested_refuted (MuProps.v) | Finding: with a Multiset among the members the display is wrong: in {A: {X: d1, Y: d2}, B: d3} the column of A.Y is shown under the name B, and the column of B is not shown at all. |
| C197_empty_schema_refuted (MuProps.v) | Finding: an item whose schema is an empty dictionary is reported as not being in the schema. |
| C197_only_last_refuted (MuProps.v) | Finding: of several columns that the schema does not list only the last is reported, and of several that are missing too. |
| C198_sorted_refuted (DpProps.v) |  |
| C199_hash_refuted (DpProps.v) |  |
| C199_no_dots_refuted (DpProps.v) |  |
| C199_twice_refuted (DpProps.v) |  |
| C19_min_refuted (FillProps.v) | signed integers and floats with an invalid value in the middle: the minimum of [5, invalid, 7] is 7 |
| C19_sum_of_valid_refuted (FillProps.v) | the sum does not skip invalid integers: int8 column [1, inv], one group |
| C200_col_all_refuted (DpProps.v) |  |
| C201_dots_refuted (DpProps2.v) |  |
| C201_labels_refuted (DpProps2.v) |  |
| C202_empty_refuted (DpProps2.v) |  |
| C203_raises_refuted (DpProps2.v) | Finding: a Multiset whose last column does not fit beside the first cannot be shown: the bottom line of headings is cut with [-0:], which keeps all of it, and painting raises IndexError. Here two members with one column each of 45 letters. |
| C204_sorted_refuted (DpProps2.v) |  |
| C204_summary_refuted (DpProps2.v) |  |
| C205_rounded_refuted (DpProps2.v) | Finding: it is the text that is compared, not the key: two different keys that are written alike (here rounded to the same digit) are shown as one key and its repeat. |
| C206_uint64_refuted (UfProps.v) | Finding: uint64 and signed arrays are compared as float64, where different large numbers become equal. |
| C207_large_refuted (UfProps.v) | Finding: a number that 64 bits cannot hold is compared as float64: the largest int64 equals 2^63. |
| C207_negative_refuted (UfProps.v) | Finding: beside an unsigned array a negative number is taken modulo the size of the type: 5 > -1 is False and 254 == -2 is True for uint8. The comment "if array is unsigned but scalar is signed upcast" is not what is done: any number up to 255 counts as fitting uint8. |
| C208_unsigned_refuted (UfProps.v) | Finding: adding a negative number to an unsigned array stays unsigned: uint8 1 + -2 is 255, the invalid of uint8, where numpy gives -1 in int16. |
| C209_invert_refuted (UfProps.v) | Finding: np.invert(a, out=b) raises AttributeError for every array that is not bool: the tuple of the arguments is asked for its dtype. |
| C209_narrow_refuted (UfProps.v) | Finding: with out= the operands are converted to its type before the operation, not the result after it: the maximum of int8 10 and int16 -200 into an int8 array is 56, although the maximum, 10, fits. |
| C20_filter_refuted (GroupingProps.v) | A row removed by the filter is not filtered in the result: it shows ('Inv', 'Inv'). Here the second of two rows fails the filter. |
| C210_dtype_refuted (UfProps.v) | Finding: np.minimum.reduce and np.maximum.reduce raise AttributeError when dtype= is given as a class like np.int32, the usual way. |
| C210_initial_refuted (UfProps.v) | Finding: initial= is ignored: the result is the same whatever is given, so [1, 2].sum(initial=10) is 3. |
| C210_out_refuted (UfProps.v) | Finding: out= is ignored: the array given is never written. |
| C211_bytes_refuted (UfProps.v) | Finding: appending bytes to an array of byte strings appends their Python notation: FA(['a']) + b'x' holds ab'x' instead of ax. |
| C212_footers_refuted (SvProps.v) | Finding: footers are not in the file, but their labels are: a Dataset with footers comes back with footer lines that are all blank, and every copy() of it raises ValueError if it has two rows or more. |
| C212_view_refuted (SvProps.v) | Finding: the sort index is read from the wrong place: whatever the data, the order of the view after loading is the first column of the Dataset. With the column a = [2, 0, 1] sorted by itself the rows come in the order 2, 0, 1, where the order is 1, 2, 0; with other values it is no row order at all. |
| C213_two_codes_refuted (SvProps.v) | Finding: a mapping with one name for two codes (allowed, with a warning) loses a code in the file: the rows of code 1 show no name after loading. |
| C213_two_names_refuted (SvProps.v) | Finding: a mapping with two names for one code loses the first name: it is not known after loading. |
| C214_axis_0_refuted (RdProps.v) | Finding: nansum, mean, nanmean, var, nanvar, std and nanstd ignore axis=0 (the keyword is passed on only if it is not 0): for an array of two dimensions they return one number for the whole array, where axis=-2, which means the same, returns one for each column: nansum(axis=0) of [[1, 2], [3, 4]] is 10, not [4, 6]. |
| C214_invalid_refuted (RdProps.v) | Finding: for integers with an invalid value, the methods that ignore invalid values (nansum, nanmean, nanmin, ...) count it as the number it is stored as when axis=, keepdims=True or ddof= is given, or the array has two dimensions, because numpy is called then: nansum() of the int8 array [5, Inv] is 5, and nansum(axis=-1) is -123. |
| C216_ddof_refuted (RdProps.v) | Finding: rt.nanvar and rt.nanstd of a list divide by the number of elements and of a FastArray by one less: rt.nanvar([1, 3]) is 1 and rt.nanvar(rt.FastArray([1, 3])) is 2. |
| C216_list_refuted (RdProps.v) | Finding: rt.var, rt.std and rt.median of a list (or any other value without those methods) raise AttributeError, because they call functions that Python does not have (builtins.var, builtins.median; rt.std too would call var). |
| C216_position_refuted (RdProps.v) | Finding: the axis as second argument, as numpy's functions take it, is ignored by the functions of a FastArray: rt.mean(a, 1) is the mean of all elements; rt.nansum(a, 1) raises, because the second argument is taken for the filter. |
| C217_same_refuted (RoProps.v) | Finding: mask_or and the like of a single array return that array itself, not a new one (so a later change in place of the result changes the input), and a version in place that raises because an array has another length has already changed its first array. |
| C217_twice_refuted (RoProps.v) | Finding: an array given twice to a version in place is read after it was changed: mask_xori(a, b, a) is all False, where a xor b xor a is b. |
| C218_array_refuted (RoProps.v) | Finding: items given as an array or a tuple (the documentation says list-like) are compared with the labels position by position: with labels [1, 2] and items (2, 1) no row is kept. |
| C218_like_refuted (RoProps.v) | Finding: like= with a str raises for label columns of bytes, the kind riptable makes of strings (the line that would encode the str only sets a local variable): the examples of the documentation raise. So does regex= with a str, and like= and regex= on a Dataset without rows. |
| C219_iter_refuted (RoProps.v) | Finding: as_type='iter' gives generators that look at the current row when they are read: if the rows are collected first (list(ds.asrows('iter'))), every one of them gives the values of the last row. |
| C220_names_refuted (RoProps2.v) | Finding: imatrix_y with several functions and fewer names silently leaves out the functions without a name. |
| C220_stale_refuted (RoProps2.v) | Finding: once a Dataset has a matrix (also one left by an earlier ds.sum(axis=1)), imatrix_totals ignores the columns it is given, and the totals are those of the values at the time the matrix was made, not of the Dataset's: after column a = [1, 2] is replaced by [5, 6] the totals still are 1 and 2. |
| C223_bad_row_refuted (BdProps.v) | Finding: sum and mean disagree on the total of a bad row: that of sum counts its elements in bad columns, that of mean and the other functions of several passes does not. Here both are computed with the sum: row b holds 10 in the bad column x and 1 in y; the totals are 11 and 1. |
| C223_base0_refuted (BdProps.v) | Finding: badrows given as numbers to a function of several passes leave out the next row instead if the categories count from 0 (base_index=0): with badrows=[0] the total leaves out row b, not row a. |
| C223_filtered_refuted (BdProps.v) | Finding: with showfilter=True the functions of several passes count the elements of bad rows, of every column, to the total of the column Filtered (which is empty here): 10 for one element of 10 in a bad row of column x. |
| C224_cols_refuted (BdProps.v) | Finding: and an array given as badcols too: the column coloured is the next one, and the call raises if the last column is bad. |
| C224_rows_refuted (BdProps.v) | Finding: with showfilter=True a numpy array given as badrows is changed: 2 is added to each of its numbers by sum, min and max (1 by the others); the rows coloured by sum, min and max are the ones after the bad ones. |
| C225_empty_refuted (ExProps.v) | Finding: on an array without strings they raise. |
| C225_names_refuted (ExProps.v) | Finding: of two groups given the same name only the last is in the result. |
| C225_optional_refuted (ExProps.v) | Finding: a group that takes no part in a match, such as the second of (a)/(b), gives Python's None instead of the fill value. |
| C225_str_refuted (ExProps.v) | Finding: for an array of str (not bytes) a pattern without groups raises: the code decodes the pattern as if it were bytes. |
| C226_bool_refuted (ExProps.v) | Finding: bools are not taken for numbers: in the matrix a column of only True is a column of 0, as is a column of only False. |
| C227_bytes_refuted (NaProps.v) | Finding: invalid_set takes bytes according to its documentation, but raises: the decoded bytes are thrown away before the test for str. |
| C228_copy_refuted (NaProps.v) | Finding: so does copy (and Categorical(c)), although it passes the invalid category on to the constructor. |
| C228_shift_refuted (NaProps.v) | Finding: shift_cat forgets the invalid category and the name of filtered elements. |
| C228_take_refuted (NaProps.v) | Finding: indexing forgets the invalid category: an invalid element is no longer invalid in c[p:p+1], c[mask] or c[[p]]. |
| C229_categories_refuted (SzProps.v) | Finding: a category array shared by two Categoricals is counted twice in the physical size. |
| C229_codes_refuted (SzProps.v) | Finding: and of two Categoricals with the same codes and different categories only the first one's categories are counted. |
| C229_cycle_refuted (SzProps.v) | Finding: a Struct that contains itself counts twice; its integers also in the physical size. |
| C229_shared_refuted (SzProps.v) | Finding: and a Struct that is there twice counts once. |
| C229_view_refuted (SzProps.v) | Finding: a view counts as the whole array it is a view of, in the logical size too, which is said to be the size after a deep copy. |
| C22_mapped_hstack_refuted (GroupingProps.v) | Without that, rows change: code 1 is 'a' in one and 'b' in the other. |
| C22_shared_name_refuted (GroupingProps.v) | A name with two codes loses one of them: the row then shows "!<1>". |
| C231_atomic_refuted (CvProps.v) | Finding: the names are checked with getattr, which also finds methods: make_categoricals(['a', 'keys']) raises only when it reaches 'keys', with 'a' already converted, although "error checking will complete before any conversion begins" (rt_struct.py:1804, 1818-1826). |
| C232_collision_refuted (CvProps.v) | Finding: without the prefix a name may be reserved, then it is capitalised (rt_struct.py:2628-2634) and may overwrite another entry: of pin and pIn only one is left. |
| C232_method_refuted (CvProps.v) | Finding: a name of xtra that gives the name of a method with the prefix raises TypeError although there is no such column, after the columns before it were converted: hasattr finds methods (rt_struct.py:1946), as pivot of Datasets. |
| C232_multi_refuted (CvProps.v) | Finding: a Categorical with several keys is left out without an exception: the NotImplementedError is made but not raised (rt_struct.py:1875-1878). |
| C232_order_refuted (CvProps.v) | Finding: with keep_prefix=False a column of codes is lost when its own name is a name of xtra that comes earlier: with px and ppx and the names px, x the Categorical of ppx replaces px, and there is no Categorical of x (rt_struct.py:1965-1972). |
| C233_long_refuted (TdProps.v) | Finding: for very long TimeSpans the division of floats can round up to the next second, the decimals are those of the second before (rt_datetime.py:6712): this one, a float64, of 272 years is shown a second too long. |
| C233_precision_refuted (TdProps.v) | Finding: with fewer decimals (DateTimeBase.PRECISION) the last digits of the nanoseconds are shown in place of the first: with three, 1.5 s is 00:00:01.000 and 1 s and 7 ns is 00:00:01.007 (rt_datetime.py:688-690). |
| C234_negative_refuted (TdProps.v) | Finding: a negative TimeSpan of one second has hhmmss -4041, that is -10000 for one hour less and 5959 (rt_datetime.py:6604-6606). |
| C234_round_refuted (TdProps.v) | Finding: the unit is chosen before rounding: 59.9999 s is shown as 60.000s, not 1.000m (rt_datetime.py:6653-6658). |
| C235_lambdas_refuted (ArProps.v) | Finding: the results are kept by the capitalized __name__ of the functions (rt_dataset.py:7469): of two lambdas, or of f and F, only the last result is left. |
| C235_method_refuted (ArProps.v) | Finding: with check_op, the default, a function whose __name__ is that of a method of Dataset is never called: the method is, without the arguments (rt_dataset.py:7454-7460). |
| C236_name_refuted (ArProps.v) | Finding: with include_total, a category of the columns that is called Total is lost: the margin takes its column, and the rows do not sum to 100 (rt_accumtable.py:425-428). |
| C237_letter_refuted (CpProps.v) | Finding: the letter is tested with in "pP" (rt_accumtable.py:1633), which is true for the empty string and for pP; other strings raise. |
| C237_short_refuted (CpProps.v) | Finding: zip stops at the shortest list (rt_accumtable.py:1628): with fewer names, or fewer filters, than values the other values are left out without a word. |
| C238_numbers_refuted (CpProps.v) | Finding: a list of numbers, True and False or a slice, which ds[...] takes, cannot be popped: they select a numpy array, which col_pop hands to getattr (rt_struct.py:3692-3695): TypeError. |
| C239_dict_refuted (CpProps.v) | Finding: of a dictionary in the Struct the keys are tested, not the values (rt_struct.py:4026-4028, 4057-4059): with {"a": False} any is True. |
| C23_regroup_of_rows_refuted (GroupingProps.v) | A grouping that holds its row arrays (made from an array, not a categorical) loses categories: here the last row passes the filter with the value 30 and shows the invalid value 99. |
| C241_bools_refuted (NuProps.v) | Finding: the sentinel of bools is False, so nunique of bools does not count False. |
| C241_dates_refuted (NuProps.v) | Finding: Dates are integers to nunique, so it counts the missing date 0 as a value. |
| C242_negative_refuted (NuProps.v) | Finding: of a negative scalar bitcount counts the bits of the absolute value, of an array with it those of two's complement. |
| C243_capitals_refuted (OvProps.v) | Finding: the extension is found in any case, but .SDS is not taken for it when the file is written: the file that is looked for is not the one that is written, and nothing is asked. |
| C243_enter_refuted (OvProps.v) | Finding: the answer is tested with [choice in "Yy"], so the empty answer, just Enter, means yes: the file is written over. |
| C243_separator_refuted (OvProps.v) | Finding: a Dataset with a separator in its name is looked for with "!" in its place, but written with the separator: a file that is there is written over and nothing is asked. |
| C244_arrays_refuted (OvProps.v) | Finding: separators in the names of arrays become "!", so a/b and a!b are one file. |
| C244_structs_refuted (OvProps.v) | Finding: a Struct without nested containers is not saved under its name: any name gives the file of the path, so the second Struct is written over the first. |
| C245_dots_refuted (KsProps.v) | Finding: a name with a dot in it gives the path of another item. |
| C246_codes_refuted (KsProps.v) | Finding: two names with one code are accepted with a warning: the code has only the last of them, so the first comes back as another name. |
| C247_lost_refuted (NmProps.v) | Finding: a key that already has the numbered name of another one replaces it: one of the keys is lost. |
| C248_empty_refuted (NmProps.v) | Finding: a name of underscores only becomes the empty name. |
| C248_lost_refuted (NmProps.v) | Finding: underscores in front are cut off without a look at the other names: of _a and a only one column is left; so are sum and Sum, for sum is a method of Datasets. |
| C249_empty_line_refuted (CsvfProps.v) | Finding: an empty line is an error in versions 0 and 3 but not in version 1. |
| C249_no_rows_refuted (CsvfProps.v) | Finding: a file with names but no rows is an error in version 2 and gives empty columns in the others; equal names are an error in version 2 only. |
| C249_twice_refuted (CsvfProps.v) | Finding: of two columns with one name only the last is kept, and so of sum and Sum, for sum is a method of Datasets and is capitalized. |
| C24_shrink_with_misc_refuted (GroupingProps.v) | Otherwise the other rows are put in one of the new categories: categories a, b shrunk to [a, c] with misc z turn the row b into c. |
| C250_names_refuted (CsvfProps.v) | Finding: columns a and a.npy go to one file, and only one of them comes back, and a column x.npy1 comes back as x1. |
| C250_order_refuted (CsvfProps.v) | Finding: the columns come back in the order of the directory listing, not in their own. |
| C27_igroup_refuted (GroupingProps.v) | igroup after a filtered call is the filtered packing, not the packing of the grouping. |
| C28_apply_reduce_refuted (GroupingProps.v) |  |
| C29_filtered_less_refuted (CatProps.v) | A filtered row satisfies c < s and c <= s. |
| C29_unordered_refuted (CatProps.v) | Unsorted categories (ordered=False): the order comparison is not rejected, and is wrong. |
| C30_filtered_isin_refuted (CatProps.v) | Grouping.isin: a filtered row gets the answer for the last category. |
| C30_not_equal_list_refuted (CatProps.v) | c != [values] is not the negation of c == [values]: with two values it is true for every row. |
| C31_add_then_set_refuted (CatProps.v) | After category_add, a row set to the new category shows "!<code>". |
| C31_remove_shows_stale_refuted (CatProps.v) | What c[i] shows after category_remove is wrong: rows of a later category show another one. |
| C31_replace_longer_refuted (CatProps.v) | Replacing a category by a longer name cuts the name to the width of the array. |
| C32_add_used_name_refuted (CatProps.v) | mapping_add of a name that is in use takes the name away from its first code in one direction only. |
| C32_replace_refuted (CatProps.v) | mapping_replace leaves the old name pointing at the code. |
| C33_filtered_row_refuted (CatProps.v) | A filtered row takes the new category although it was not assigned to. |
| C33_other_row_shows_refuted (CatProps.v) | c[i] of a row that was not assigned to changes. |
| C34_different_base_refuted (CatProps.v) | Same categories but different base: off by one. |
| C34_different_categories_refuted (CatProps.v) | Different categories: the categorical's own values are stored as codes; here c[:] = v gives rows that hold neither. |
| C35_source_changed_refuted (CatProps.v) | The result shares the code array with the source, which thereby loses the rows that fail. |
| C36_expand_dict_base0_refuted (CatProps.v) | expand_dict of a base 0 categorical is off by one. |
| C42_right_only_count_refuted (MergeProps.v) |  |
| C43_lengths_refuted (MergeProps.v) | Left join with keep=('first', None) on a Categorical with filtered rows: the two index arrays have different lengths. |
| C43_outer_multikey_refuted (MergeProps.v) | Outer join on two columns with keep=(None, 'first'): the right row with the null key is lost and the matched one comes twice. |
| C46_mismatched_keys_refuted (MergeProps.v) | C46: key lists of different lengths are not rejected |
| C52_infinity_refuted (AsofProps.v) | sorted float columns starting with -infinity are rejected as unsorted |
| C52_unsorted_left_empty_right_refuted (AsofProps.v) |  |
| C52_unsorted_right_refuted (AsofProps.v) |  |
| C52_unsorted_right_wrong_refuted (AsofProps.v) |  |
| C54_duplicated_last_refuted (DsProps.v) | Finding: with keys [10, 20, 10] the row holding the only 20 is reported as a duplicate. |
| C55_jagged_dict_refuted (DsProps.v) | Finding: when a list is empty and a column happens to have as many values as the result has rows, that column is used as it is and values end up beside the wrong partners: {'A': [[1], [2, 3]], 'B': [[5, 6, 7], []]} gives the rows (1,5) (2,6) (3,7); the second input row has no combination at all. |
| C56_name_clash_refuted (DsProps.v) | Finding: the name of the value (or variable) column may be that of an id column; the id column is then silently replaced. Here id column "value" (118) holds 1, 2 and is lost. |
| C59_iterrows_refuted (DsProps.v) | Finding: list(ds.iterrows()) gives the last row every time. |
| C60_dtype_refuted (SortProps.v) | Finding: the dtype is not part of the key. Replacing a column by a view of the same bytes with another dtype leaves the old order in place, whatever the crc. |
| C60_load_refuted (SortProps.v) | Finding: the direction of a view is not saved. A dataset saved with a descending view is loaded as ascending with the descending index cached: the order flips once the cache entry is gone. |
| C61_repeated_refuted (PdsProps.v) | Finding: the constructor accepts repeated names; the second name is lost and rows lose their label. |
| C61_stale_refuted (PdsProps.v) | Finding: pcat keeps the names it was made with. |
| C62_refuted (PdsProps.v) | Findings: "123" + ".s" alone is named "3"; "1.s" and "10.s" are named "1" and "0"; a colon counts as a digit. |
| C63_refuted (DateProps.v) | Findings: from 2100 on the year stays 2099 and days run past 31; 1 January 1970 is taken for invalid; a date before 1970 has month 0 or is invalid according to the length of the array. |
| C64_refuted (DateProps.v) | Findings: day_of_month mixes the local year with UTC time: 1 instead of 31 and even 32; minutes in Kolkata and date() in Tokyo (midnight of the previous day) are UTC's. |
| C65_refuted (DateProps.v) | Findings: at the exact switch the old offset is still used (New York, 14 March 2021 7:00 UTC is shown as 2:00, a time that does not exist); no summer time from 2041. |
| C66_refuted (DateProps.v) | Finding: 3:00 on the day summer time starts exists in New York, but is displayed as 2:00 once read. |
| C67_refuted (LosslessProps.v) | Findings: int64 2 is found in float64 [2.5]; int64 -2 in uint64 [2^64-2, 1] (all() where any() is meant); in a multi-key match an invalid int32 equals the valid int64 -2^31 (astype with copy=False). |
| C68_refuted (LosslessProps.v) | Findings: a plain int64 index holding the invalid value picks row 0 when the number of columns is even; an invalid index into a two-dimensional array without rows is an IndexError. |
| C69_char_stop_refuted (StrProps.v) | Missing: [inclusive] with a longer stop string keeps only its first character. |
| C70_far_apart_refuted (AsofProps.v) | C70: rows farther apart than the tolerance are matched when the subtraction overflows. |
| C74_count_transform_refuted (GroupingProps.v) | A filtered row gets the count of the last group. |
| C75_base0_refuted (CatProps.v) | Base 0 codes are merged as if they were base 1: the first category is taken for a filtered row. |
| C75_less_refuted (CatProps.v) | c < d compares positions in the merged category list, which is not sorted. |
| C76_copy_base0_refuted (CatProps.v) | A copy of a base 0 categorical has base 1 and shows other values. |
| C76_copy_shares_categories_refuted (CatProps.v) | category_replace on a copy changes the original. |
| C76_rows_after_replace_refuted (CatProps.v) | After category_replace the rows taken from a categorical are marked sorted although the list is not, and == misses rows. |
| C77_unused_category_refuted (CatProps.v) | Otherwise unique(c) is the whole category list, also categories no row shows. |
| C78_invalid_ignored_refuted (CatProps.v) |  |
| C80_shift_base0_refuted (CatProps.v) | Base 0: the rows brought in show the first category. |
| C82_tagged_rows_refuted (DsProps.v) | Finding: rows with different keys are meant to be refused, but only the number of times each key occurs is compared. [{a: 1}, {b: 2}] becomes one row (a=1, b=2). |
| C83_jagged_rows_refuted (DsProps.v) | Findings: any unicode row makes the call fail (a float in the dtype text); a bytes fill for byte rows reads an unbound variable; a fill longer than every item is cut. |
| C85_alias_refuted (SortProps.v) | Findings. (1) sort_view keeps the caller's list: with two datasets given the same list, renaming a column of the first makes the view of the second disappear. (2) A list of keys changed after sort_view changes the order. (3) Copying or slicing a dataset with a one-direction view raises. (4) With several directions, a copy that lacks some keys has the directions of the wrong keys. (5) col_str_replace raises. |
| C85_copy_refuted (SortProps.v) |  |
| C85_raise_refuted (SortProps.v) |  |
| C87_refuted (DateOpsProps.v) | Finding: start_of_month of a date in January 1970 is invalid. |
| C88_refuted (DateOpsProps.v) | Finding: every valid date is > and >= an invalid right operand. |
| C89_refuted (DateOpsProps.v) | Finding: with a bucket for the time before the first cut point, exactly midnight is still filtered. |
| C90_refuted (DateOpsProps.v) | Finding: an invalid (zero) row counts as 1970, so the range runs from there. |
| C91_refuted (DateOpsProps.v) | Findings: times given in New York come back four or five hours late, invalid ones become valid, and the display zone is lost. |
| C92_refuted (LosslessProps.v) | Finding: with prefer_signed alone, 128 is given int8, whose greatest number is 127. |
| C93_diff_zero_refuted (ArrProps.v) | Finding: the documentation says diff raises when periods is 0. It does so, by a shape mismatch, only for arrays of two or more elements; a shorter array gives invalid values. |
| C94_differs_refuted (ArrProps.v) | Finding: on strings differs computes the opposite, marking the rows that are different (it is the same expression as transitions). |
| C94_transitions_refuted (ArrProps.v) | Finding: on strings the first rows, which have no previous element, are marked as transitions unless they are empty; on numbers they are not. |
| C97_inplace_alias_refuted (ArrProps.v) | Finding: when the first array appears again, the in-place form reads its half-computed result: mask_xori(a, b, a) clears a instead of leaving b in it. |
| C97_inplace_error_refuted (ArrProps.v) | Finding: the in-place form can fail half way: a later mask of another length is reported after the first argument has been changed. |
| C98_lower_higher_refuted (ArrProps.v) | Finding: interpolation_method='lower' and 'higher' index the array with a float, so they raise for every q that does not fall exactly on a value. |
| C99_describe_nans_refuted (ArrProps.v) | Finding: on a column without a valid value Nans is NaN, not the number of invalid rows. |
| C99_quantile_refuted (ArrProps.v) | Finding: on a signed integer column holding an invalid value the largest valid value is cut off, so the 1-quantile (and every quantile above the last but one value) is NaN. |

### Seen while reading, not modelled

* `Dataset.quantile`-style `quantile` with interpolation 'lower'/'higher' always raises (rt_bin.py).
* `startswith` / `endswith` return a TypeError object instead of raising it (rt_str.py).
* `Grouping.count` with a filtered packing, transform and showfilter reads an unbound `ikey`; `apply_reduce` with tuple results leaves a sliced result array; `regroup` on an enum with a filter raises TypeError when `ikey` is None; shrinking a base 0 categorical raises.
* `GroupingEnum.code_array` and `category_array` are misaligned when the mapping is not injective.
* A composite key made by cat2keys can fuse two labels into one when labels contain the separator.
* `merge2(..., keep=...)`: the grouping mask depends on the order of the columns.
* The mbget docstring shows index -7 into 7 values as a miss; the code and the tests treat it as the first value.
* `get_min_valid` outside numba returns the largest value of an unsigned type instead of 0 (numba/invalid_values.py:279); the numba version is right.
* The Dublin table is wrong before 1981 and the Sydney table before 2008.
* `len(ascending) != len(by)` compares with the number of characters when `by` is a string.
* `PDataset`: negative pslice indexes, unicode file names; sort_inplace keeps the cutoffs although rows move between partitions.
* `Dataset.trim`-style functions multiply a column returned by the user's function in place.
* A failed column add to an empty Dataset leaves `_nrows` set.


## 8. Mutation tests

1890 edits of the model are logged in seeded/LOG.jsonl, one per line, each with the theorems that failed. Survivors led to tighter theorems (field `tightened`) or are explained in the line.

