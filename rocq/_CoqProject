-Q theories Verif
theories/Common.v
theories/PrimeS_Model.v
theories/PrimeS_Proofs.v
theories/PrimeS_Proofs2.v
theories/PrimeSW_Model.v
theories/PrimeSW_Proofs.v
theories/PrimeS_Props.v
theories/SG_Model.v
theories/SG_Props.v
theories/SB_Model.v
theories/SB_Proofs.v
theories/SB_Props.v
theories/FSKey_Model.v
theories/FSKey_Props.v
theories/HTable_Model.v
theories/HTable_Props.v
theories/Lru_Model.v
theories/Lru_Props.v
theories/GetOrInsert_Model.v
theories/GetOrInsert_Props.v
theories/WriteBack_Model.v
theories/WriteBack_Props.v
theories/ZMap.v
theories/FSM_Model.v
theories/FSM_Proofs.v
theories/FSM_Spec.v
theories/FSM_Inv.v
theories/FSM_Props.v
theories/Prop_Model.v
theories/Prop_Props.v
theories/Tree_Model.v
theories/TreeRD_Model.v
theories/Tree_Inv.v
theories/Tree_Proofs.v
theories/Tree_Remove.v
theories/Tree_Range.v
theories/Tree_Flush.v
theories/Tree_Props.v
theories/Tree_RD.v
theories/Tree_RD2.v
theories/TreeRD_Props.v
theories/File_Model.v
theories/File_Proofs.v
theories/File_Props.v
theories/FileConc_Model.v
theories/FileConc_Props.v
theories/Sched_Model.v
theories/Sched_Proofs.v
theories/Sched_Props.v
theories/Codec_Model.v
theories/Codec_Proofs.v
theories/Codec_GF.v
theories/Codec_Props.v
theories/Names_Model.v
theories/Names_Dir.v
theories/Names_Proofs.v
theories/Names_Ops.v
theories/Names_Ops2.v
theories/Names_Spec.v
theories/Names_Props.v
theories/Readdir_Model.v
theories/Readdir_Props.v
theories/Zones_Model.v
theories/Zones_Proofs.v
theories/Zones_Props.v
theories/Vdev_Model.v
theories/Vdev_Props.v
theories/Repair_Model.v
theories/Repair_Proofs.v
theories/Repair_Props.v
theories/DDML_Model.v
theories/DDML_Proofs.v
theories/DDML_Props.v
theories/IDML_Model.v
theories/IDML_Proofs.v
theories/IDML_Props.v
theories/IDMLConc_Model.v
theories/IDMLConc_Proofs.v
theories/IDMLConc_Props.v
theories/Label_Model.v
theories/Label_Props.v
theories/Forest_Model.v
theories/Forest_Props.v
theories/Sync_Model.v
theories/Sync_Proofs.v
theories/Sync_Props.v
theories/Crash_Model.v
theories/Crash_Proofs.v
theories/Crash_Props.v
theories/Raid_Model.v
theories/Raid_Recon.v
theories/Raid_World.v
theories/Raid_One.v
theories/Raid_Multi.v
theories/Raid_Props.v
theories/RaidW_Model.v
theories/RaidW_Proofs.v
theories/RaidW_Props.v
theories/RaidL_Model.v
theories/RaidL_Proofs.v
theories/RaidL_Props.v
theories/Replace_Model.v
theories/Replace_Props.v
theories/Fuse_Model.v
theories/Fuse_Props.v
theories/Float_Model.v
theories/Pool_Model.v
theories/Pool_Spec.v
theories/Pool_Float.v
theories/Pool_Proofs.v
theories/Pool_Props.v
theories/Cleaner_Props.v
theories/ZoneTxg_Props.v
theories/TreeCZ_Model.v
theories/TreeCZ_Proofs.v
theories/TreeCZ_Conc.v
theories/TreeCZ_Props.v
theories/TreeSync_Props.v
theories/Rpc_Model.v
theories/Rpc_Props.v
theories/RpcList_Props.v
theories/XAttr_Model.v
theories/XAttr_Proofs.v
theories/XAttr_Props.v
theories/XAttrFuse_Props.v
theories/ReadSync_Model.v
theories/ReadSync_Props.v
theories/Attr_Model.v
theories/Attr_Props.v
theories/MirrorIO_Model.v
theories/MirrorIO_Props.v
theories/Statvfs_Model.v
theories/Statvfs_Props.v
theories/Syncer_Model.v
theories/Syncer_Props.v
theories/NodeLock_Model.v
theories/NodeLock_Props.v
theories/TreeLock_Model.v
theories/TreeLock_Props.v
theories/PoolCreate_Model.v
theories/PoolCreate_Props.v
theories/Import_Model.v
theories/Import_Props.v
theories/TreeFail_Model.v
theories/TreeFail_Props.v
theories/CleanTask_Model.v
theories/CleanTask_Props.v
theories/MountProp_Model.v
theories/MountProp_Props.v
theories/Wire_Model.v
theories/Wire_Props.v
theories/Check_Model.v
theories/Check_Props.v
theories/Cli_Model.v
theories/Cli_Props.v
theories/Status_Model.v
theories/Status_Props.v
theories/Args_Model.v
theories/Args_Props.v
theories/Lock_Model.v
theories/Lock_Props.v
