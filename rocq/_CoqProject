-Q theories Verif
theories/Base.v
theories/Base_Proofs.v
theories/Str.v
theories/Int64_Model.v
theories/Int64_Spec.v
theories/Int64_Proofs.v
theories/Int64_Props.v
theories/Numerals_Model.v
theories/Numerals_Proofs.v
theories/Utils_Model.v
theories/Utils_Spec.v
theories/Utils_Proofs.v
theories/Utils_Props.v
theories/WrapExc_Model.v
theories/WrapExc_Spec.v
theories/WrapExc_Proofs.v
theories/WrapExc_Props.v
theories/FrozenDict_Model.v
theories/FrozenDict_Spec.v
theories/FrozenDict_Proofs.v
theories/FrozenDict_Props.v
theories/TypedBox_Model.v
theories/TypedBox_Spec.v
theories/Str_Proofs.v
theories/TypedBox_Proofs.v
theories/TypedBox_Props.v
theories/Partitions_Model.v
theories/Partitions_Spec.v
theories/Partitions_Proofs.v
theories/Partitions_Props.v
theories/Fields_Spec.v
theories/Fields_Proofs.v
theories/Fields_Props.v
theories/Format_Model.v
theories/Storage_Model.v
theories/Template_Spec.v
theories/Template_Proofs.v
theories/Format_Proofs.v
theories/Parts_Spec.v
theories/Parts_Proofs.v
theories/Format_Props.v
theories/Storage_Spec.v
theories/Resolve_Proofs.v
theories/Cut_Spec.v
theories/Cut_Proofs.v
theories/Resolve_Props.v
theories/Paths_Spec.v
theories/Paths_Proofs.v
theories/Discovery_Proofs.v
theories/Layout_Proofs.v
theories/Wild_Spec.v
theories/Wild_Proofs.v
theories/Paths_Props.v
theories/Discovery_Props.v
theories/Models_Model.v
theories/Models_Spec.v
theories/Json_Proofs.v
theories/Models_Proofs.v
theories/Models_Props.v
theories/TypeSystem_Model.v
theories/TypeSystem_Spec.v
theories/TypeSystem_Proofs.v
theories/TypeSystem_Props.v
theories/Graph_Model.v
theories/Graph_Spec.v
theories/Graph_Proofs.v
theories/Graph_Props.v
theories/Backend_Model.v
theories/Backend_Spec.v
theories/Backend_Proofs.v
theories/Backend_Props.v
theories/Executor_Model.v
theories/Executor_Spec.v
theories/Executor_Proofs.v
theories/Executor_Done_Proofs.v
theories/Executor_Build_Proofs.v
theories/Executor_Link_Proofs.v
theories/Executor_Write_Proofs.v
theories/Executor_Store_Proofs.v
theories/Executor_Truth_Proofs.v
theories/Executor_Id_Proofs.v
theories/Executor_Crash_Proofs.v
theories/Executor_Resume_Proofs.v
theories/Executor_Resumed_Proofs.v
theories/Executor_Restart_Proofs.v
theories/Executor_Again_Proofs.v
theories/Executor_New_Proofs.v
theories/Executor_Stop_Proofs.v
theories/Executor_Top_Proofs.v
theories/Executor_Cases.v
theories/Executor_Cases_Proofs.v
theories/Executor_Tidy_Proofs.v
theories/Executor_Props.v
theories/Locations_Spec.v
theories/Locations_Proofs.v
theories/Locations_Props.v
theories/Hints_Model.v
theories/Hints_Spec.v
theories/Hints_Proofs.v
theories/Hints_Props.v
theories/Types_Model.v
theories/Types_Spec.v
theories/Types_Proofs.v
theories/Types_Props.v
theories/PyTypes_Model.v
theories/PyTypes_Spec.v
theories/PyTypes_Proofs.v
theories/PyTypes_Props.v
theories/PyMeaning_Spec.v
theories/PyMeaning_Proofs.v
theories/PyMeaning_Props.v
theories/ModelTypes_Model.v
theories/ModelTypes_Spec.v
theories/ModelTypes_Proofs.v
theories/ModelTypes_Props.v
theories/IO_Model.v
theories/IO_Spec.v
theories/IO_Proofs.v
theories/IO_Props.v
theories/Cast_Model.v
theories/Cast_Spec.v
theories/Cast_Proofs.v
theories/Cast_Props.v
theories/Dispatch_Model.v
theories/Dispatch_Spec.v
theories/Dispatch_Proofs.v
theories/Dispatch_Props.v
theories/Views_Model.v
theories/Views_Spec.v
theories/Views_Proofs.v
theories/Views_Props.v
theories/Producers_Model.v
theories/Producers_Spec.v
theories/Producers_Proofs.v
theories/Producers_Props.v
theories/ArrowTypes_Model.v
theories/ArrowTypes_Spec.v
theories/ArrowTypes_Proofs.v
theories/ArrowTypes_Props.v
theories/BigQueryTypes_Model.v
theories/BigQueryTypes_Spec.v
theories/BigQueryTypes_Proofs.v
theories/BigQueryTypes_Props.v
theories/FrameTypes_Model.v
theories/FrameTypes_Spec.v
theories/FrameTypes_Proofs.v
theories/FrameTypes_Props.v
theories/Placement_Model.v
theories/Placement_Spec.v
theories/Placement_Proofs.v
theories/Places_Proofs.v
theories/Placement_Props.v
theories/Artifacts_Model.v
theories/Artifacts_Spec.v
theories/Artifacts_Proofs.v
theories/Artifacts_Props.v
theories/Modules_Model.v
theories/Modules_Spec.v
theories/Modules_Proofs.v
theories/Modules_Props.v
theories/Gcs_Model.v
theories/Gcs_Spec.v
theories/Gcs_Proofs.v
theories/Gcs_Place_Proofs.v
theories/Gcs_Props.v
theories/Concurrent_Model.v
theories/Concurrent_Proofs.v
theories/Concurrent_Safe_Proofs.v
theories/Concurrent_Spec.v
theories/Concurrent_Independent_Proofs.v
theories/Concurrent_Right_Proofs.v
theories/Concurrent_Cases.v
theories/Concurrent_Cases_Proofs.v
theories/Concurrent_Props.v
theories/Access_Model.v
theories/Access_Spec.v
theories/Access_Proofs.v
theories/Access_Build_Proofs.v
theories/Access_Cases.v
theories/Access_Cases_Proofs.v
theories/Access_Props.v
theories/Json_Model.v
theories/Json_Spec.v
theories/Json_Text_Proofs.v
theories/Json_Codec_Proofs.v
theories/Json_Prefix_Proofs.v
theories/Json_Fuel_Proofs.v
theories/Json_Exact_Proofs.v
theories/Json_IO_Proofs.v
theories/Json_Cases.v
theories/Json_Cases_Proofs.v
theories/Json_Props.v
theories/Whole_Model.v
theories/Whole_Spec.v
theories/Whole_Proofs.v
theories/Whole_Reused_Proofs.v
theories/Whole_Total_Proofs.v
theories/Whole_Cases.v
theories/Whole_Cases_Proofs.v
theories/Whole_Reader_Proofs.v
theories/Whole_Props.v
theories/Mapped_Spec.v
theories/Mapped_Proofs.v
theories/Mapped_Order_Proofs.v
theories/Mapped_Cases.v
theories/Mapped_Cases_Proofs.v
theories/Mapped_Props.v
theories/StorageClass_Model.v
theories/StorageClass_Spec.v
theories/StorageClass_Proofs.v
theories/StorageClass_Cases.v
theories/StorageClass_Cases_Proofs.v
theories/StorageClass_Props.v
theories/Handlers_Model.v
theories/Handlers_Spec.v
theories/Handlers_Proofs.v
theories/Handlers_Props.v
theories/Visits_Spec.v
theories/Visits_Proofs.v
theories/Visits_Props.v
theories/Instances_Model.v
theories/Instances_Spec.v
theories/Instances_Proofs.v
theories/Instances_Props.v
theories/Pinned_Proofs.v
theories/Pinned_Props.v
theories/Ops_Spec.v
theories/Ops_Proofs.v
theories/Ops_Props.v
theories/Dumped_Spec.v
theories/Dumped_Proofs.v
theories/Dumped_Props.v
theories/Literals_Spec.v
theories/Literals_Proofs.v
theories/Literals_Props.v
theories/Exact_Spec.v
theories/Exact_Proofs.v
theories/Exact_Props.v
theories/Dangling_Spec.v
theories/Dangling_Proofs.v
theories/Dangling_Props.v
theories/Ids_Spec.v
theories/Ids_Proofs.v
theories/Ids_Props.v
theories/Missing_Spec.v
theories/Missing_Proofs.v
theories/Missing_Props.v
theories/Keys_Spec.v
theories/Keys_Proofs.v
theories/Keys_Props.v
theories/Access_Snapshot_Proofs.v
theories/Access_Snapshot_Props.v
theories/Versions_Model.v
theories/Versions_Spec.v
theories/Versions_Proofs.v
theories/Versions_Props.v
theories/Lasting_Model.v
theories/Lasting_Spec.v
theories/Lasting_Proofs.v
theories/Lasting_Cases.v
theories/Lasting_Cases_Proofs.v
theories/Lasting_Props.v
theories/Lasting_Again_Proofs.v
theories/Lasting_Again_Props.v
theories/Cached_Model.v
theories/Cached_Spec.v
theories/Cached_Proofs.v
theories/Cached_Cases.v
theories/Cached_Props.v
theories/Cached_Versions_Spec.v
theories/Cached_Versions_Proofs.v
theories/Cached_Versions_Props.v
theories/Shared_Model.v
theories/Shared_Spec.v
theories/Shared_Proofs.v
theories/Shared_Props.v
theories/FieldClass_Model.v
theories/FieldClass_Spec.v
theories/FieldClass_Proofs.v
theories/FieldClass_Props.v
theories/TypedBox_Answers_Proofs.v
theories/TypedBox_Answers_Props.v
theories/Gcs_Snapshot_Proofs.v
theories/Gcs_Snapshot_Props.v
theories/Json_Foreign_Spec.v
theories/Json_Foreign_Proofs.v
theories/Json_Foreign_Props.v
