-Q theories Verif
theories/Acc2Model.v
theories/Acc2Proofs.v
theories/Acc2Proofs2.v
theories/Acc2Proofs3.v
theories/Acc2Proofs4.v
theories/Acc2Proofs5.v
theories/Acc2Proofs6.v
theories/Acc2Proofs7.v
theories/Acc2Proofs8.v
theories/Acc2Props.v
theories/Acc2Spec.v
theories/AggModel.v
theories/AggProofs.v
theories/AggProofs2.v
theories/AggProofs3.v
theories/AggProofs4.v
theories/AggProofs5.v
theories/AggProofs6.v
theories/AggProps.v
theories/AggSpec.v
theories/ArModel.v
theories/ArProofs.v
theories/ArProps.v
theories/ArSpec.v
theories/ArrModel.v
theories/ArrProofs.v
theories/ArrProofs2.v
theories/ArrProofs3.v
theories/ArrProps.v
theories/ArrSpec.v
theories/ArrowModel.v
theories/ArrowProofs.v
theories/ArrowProofs2.v
theories/ArrowProps.v
theories/ArrowSpec.v
theories/AsofModel.v
theories/AsofProofs.v
theories/AsofProofs2.v
theories/AsofProps.v
theories/AsofSpec.v
theories/BdModel.v
theories/BdProofs.v
theories/BdProps.v
theories/BdSpec.v
theories/CatModel.v
theories/CatProofs.v
theories/CatProofs2.v
theories/CatProofs3.v
theories/CatProofs4.v
theories/CatProps.v
theories/CatSpec.v
theories/ColMapProofs.v
theories/ColMapProofs2.v
theories/ColMapProofs3.v
theories/CpModel.v
theories/CpProofs.v
theories/CpProps.v
theories/CpSpec.v
theories/CsvfModel.v
theories/CsvfProofs.v
theories/CsvfProps.v
theories/CsvfSpec.v
theories/CutModel.v
theories/CutProofs.v
theories/CutProofs2.v
theories/CutProofs3.v
theories/CutProps.v
theories/CutSpec.v
theories/CvModel.v
theories/CvProofs.v
theories/CvProofs2.v
theories/CvProps.v
theories/CvSpec.v
theories/DateModel.v
theories/DateOpsModel.v
theories/DateOpsProps.v
theories/DateProofs.v
theories/DateProofs2.v
theories/DateProofs3.v
theories/DateProps.v
theories/DateSpec.v
theories/DateTables.v
theories/DpModel.v
theories/DpProofs.v
theories/DpProofs2.v
theories/DpProofs3.v
theories/DpProofs4.v
theories/DpProofs5.v
theories/DpProps.v
theories/DpProps2.v
theories/DpSpec.v
theories/DpSpec2.v
theories/DsModel.v
theories/DsProofs.v
theories/DsProofs2.v
theories/DsProofs3.v
theories/DsProofs4.v
theories/DsProofs5.v
theories/DsProofs6.v
theories/DsProps.v
theories/DsSpec.v
theories/ExModel.v
theories/ExProofs.v
theories/ExProps.v
theories/ExSpec.v
theories/FillModel.v
theories/FillProofs.v
theories/FillProofs2.v
theories/FillProps.v
theories/FillSpec.v
theories/FlattenModel.v
theories/FlattenProofs.v
theories/FlattenProps.v
theories/FlattenSpec.v
theories/FootModel.v
theories/FootProofs.v
theories/FootProofs2.v
theories/FootProps.v
theories/FootSpec.v
theories/GbrModel.v
theories/GbrProofs.v
theories/GbrProps.v
theories/GiModel.v
theories/GiProofs.v
theories/GiProofs2.v
theories/GiProofs3.v
theories/GiProps.v
theories/GiSpec.v
theories/GqModel.v
theories/GqProofs.v
theories/GqProofs2.v
theories/GqProofs3.v
theories/GqProps.v
theories/GqSpec.v
theories/GroupFacts.v
theories/GroupModel.v
theories/GroupingModel.v
theories/GroupingProofs.v
theories/GroupingProofs2.v
theories/GroupingProofs3.v
theories/GroupingProofs4.v
theories/GroupingProofs5.v
theories/GroupingProps.v
theories/GroupingSpec.v
theories/ItemsFacts.v
theories/ItemsModel.v
theories/ItemsProofs.v
theories/ItemsProofs2.v
theories/ItemsProps.v
theories/ItemsSpec.v
theories/KsModel.v
theories/KsProofs.v
theories/KsProps.v
theories/LosslessModel.v
theories/LosslessProofs.v
theories/LosslessProps.v
theories/MargModel.v
theories/MargProofs.v
theories/MargProofs10.v
theories/MargProofs11.v
theories/MargProofs12.v
theories/MargProofs2.v
theories/MargProofs3.v
theories/MargProofs4.v
theories/MargProofs5.v
theories/MargProofs6.v
theories/MargProofs7.v
theories/MargProofs8.v
theories/MargProofs9.v
theories/MargProps.v
theories/MargSpec.v
theories/MergeColsModel.v
theories/MergeColsProofs.v
theories/MergeColsProofs2.v
theories/MergeColsProofs3.v
theories/MergeFacts.v
theories/MergeModel.v
theories/MergeProofs.v
theories/MergeProofs2.v
theories/MergeProofs3.v
theories/MergeProofs4.v
theories/MergeProofs5.v
theories/MergeProps.v
theories/MergeSpec.v
theories/MiModel.v
theories/MiProofs.v
theories/MiProps.v
theories/MkModel.v
theories/MkProofs.v
theories/MkProofs2.v
theories/MkProps.v
theories/MkSpec.v
theories/MoModel.v
theories/MoProofs.v
theories/MoProofs2.v
theories/MoProofs3.v
theories/MoProofs4.v
theories/MoProps.v
theories/MoRef.v
theories/MoSpec.v
theories/MsModel.v
theories/MsProofs.v
theories/MsProofs2.v
theories/MsProofs3.v
theories/MsProps.v
theories/MsSpec.v
theories/MuModel.v
theories/MuProofs.v
theories/MuProofs2.v
theories/MuProofs3.v
theories/MuProofs4.v
theories/MuProofs5.v
theories/MuProps.v
theories/MuSpec.v
theories/MuSpec2.v
theories/NaModel.v
theories/NaProofs.v
theories/NaProps.v
theories/NaSpec.v
theories/NmModel.v
theories/NmProofs.v
theories/NmProps.v
theories/NuModel.v
theories/NuProofs.v
theories/NuProps.v
theories/OvModel.v
theories/OvProofs.v
theories/OvProps.v
theories/PdsModel.v
theories/PdsProofs.v
theories/PdsProofs2.v
theories/PdsProps.v
theories/RdModel.v
theories/RdProofs.v
theories/RdProps.v
theories/RdSpec.v
theories/RoModel.v
theories/RoProofs.v
theories/RoProofs2.v
theories/RoProps.v
theories/RoProps2.v
theories/RoSpec.v
theories/Sched.v
theories/SchedFacts.v
theories/SdsAppModel.v
theories/SdsAppProofs.v
theories/SdsModel.v
theories/SdsProofs.v
theories/SdsProofs10.v
theories/SdsProofs11.v
theories/SdsProofs2.v
theories/SdsProofs3.v
theories/SdsProofs4.v
theories/SdsProofs5.v
theories/SdsProofs6.v
theories/SdsProofs7.v
theories/SdsProofs8.v
theories/SdsProofs9.v
theories/SdsProps.v
theories/SdsSpec.v
theories/ShapeModel.v
theories/ShapeProofs.v
theories/ShapeProofs2.v
theories/ShapeProofs3.v
theories/ShapeProofs4.v
theories/ShapeProps.v
theories/ShapeSpec.v
theories/SortModel.v
theories/SortProofs.v
theories/SortProofs2.v
theories/SortProofs3.v
theories/SortProofs4.v
theories/SortProps.v
theories/SortSpec.v
theories/StModel.v
theories/StProofs.v
theories/StProofs2.v
theories/StProofs3.v
theories/StProps.v
theories/StSpec.v
theories/StrModel.v
theories/StrProofs.v
theories/StrProofs2.v
theories/StrProofs3.v
theories/StrProps.v
theories/StrSpec.v
theories/SvModel.v
theories/SvProofs.v
theories/SvProps.v
theories/SvSpec.v
theories/SzModel.v
theories/SzProofs.v
theories/SzProps.v
theories/SzSpec.v
theories/TabCmpModel.v
theories/TabCmpProps.v
theories/TabModel.v
theories/TabProofs.v
theories/TabProofs10.v
theories/TabProofs11.v
theories/TabProofs2.v
theories/TabProofs3.v
theories/TabProofs4.v
theories/TabProofs5.v
theories/TabProofs6.v
theories/TabProofs7.v
theories/TabProofs8.v
theories/TabProofs9.v
theories/TabProps.v
theories/TabSpec.v
theories/TdModel.v
theories/TdProofs.v
theories/TdProps.v
theories/TdSpec.v
theories/Threads.v
theories/ThreadsFacts.v
theories/TmModel.v
theories/TmProofs.v
theories/TmProofs2.v
theories/TmProofs3.v
theories/TmProps.v
theories/TmSpec.v
theories/UfModel.v
theories/UfProofs.v
theories/UfProps.v
theories/UfSpec.v
theories/WhereModel.v
theories/WhereProofs.v
theories/WhereProofs2.v
theories/WhereProps.v
theories/WhereSpec.v
