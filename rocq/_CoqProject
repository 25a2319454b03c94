-Q theories Verif
theories/Base.v
theories/L_Base.v
theories/M_Quoting.v
theories/L_Quoting.v
theories/P_Quoting.v
theories/P_QuotingFs.v
theories/M_Time.v
theories/L_Time.v
theories/P_Time.v
theories/M_IncName.v
theories/L_IncName.v
theories/P_IncName.v
theories/M_Core.v
theories/L_Core.v
theories/P_Core.v
theories/M_Crash.v
theories/L_Crash.v
theories/P_Crash.v
theories/M_Iter.v
theories/L_Iter.v
theories/L_Tree.v
theories/P_Iter.v
theories/M_MetaMgr.v
theories/L_Lookup.v
theories/L_MetaMgr.v
theories/L_MetaDir.v
theories/P_MetaMgr.v
theories/M_Conn.v
theories/S_Conn.v
theories/L_Conn.v
theories/P_Conn.v
theories/M_IterFile.v
theories/S_IterFile.v
theories/L_IterFile.v
theories/P_IterFile.v
theories/M_Rorp.v
theories/M_Meta.v
theories/L_Meta.v
theories/S_Meta.v
theories/L_MetaAttr.v
theories/P_Meta.v
theories/P_Rorp.v
theories/P_RorpLoose.v
theories/M_EaAcl.v
theories/S_EaAcl.v
theories/L_EaAcl.v
theories/P_EaAcl.v
theories/M_Hardlinks.v
theories/S_Hardlinks.v
theories/L_Hardlinks.v
theories/P_Hardlinks.v
theories/P_LinkRename.v
theories/M_Select.v
theories/S_Select.v
theories/L_Select.v
theories/L_Glob.v
theories/P_Select.v
theories/P_SelectOptions.v
theories/L_Select2.v
theories/M_Security.v
theories/S_Security.v
theories/P_Security.v
theories/M_Rdiff.v
theories/P_Rdiff.v
theories/M_CopyFile.v
theories/P_CopyFile.v
theories/M_LikeFile.v
theories/P_LikeFile.v
theories/M_LongNames.v
theories/P_LongNames.v
theories/M_Verify.v
theories/P_Verify.v
theories/M_CCPP.v
theories/S_CCPP.v
theories/P_CCPP.v
theories/M_Stats.v
theories/S_Stats.v
theories/P_Stats.v
theories/M_FileStats.v
theories/S_FileStats.v
theories/P_FileStats.v
theories/M_Global.v
theories/L_Global.v
theories/S_Global.v
theories/P_Global.v
theories/L_TimeDate.v
theories/M_RemoveFile.v
theories/L_RemoveFile.v
theories/S_RemoveFile.v
theories/P_RemoveFile.v
theories/M_CachedRF.v
theories/S_CachedRF.v
theories/L_CachedRF.v
theories/L_SubRfs.v
theories/L_PermChanger.v
theories/P_CachedRF.v
theories/P_Hardlinks2.v
theories/S_Glob.v
theories/P_Glob.v
theories/M_Lock.v
theories/P_Lock.v
theories/M_Sizes.v
theories/P_Sizes.v
theories/M_Owners.v
theories/S_Owners.v
theories/L_Owners.v
theories/P_Owners.v
theories/M_TreeFs.v
theories/M_DirPatch.v
theories/S_DirPatch.v
theories/L_TreeFs.v
theories/L_DirPatch.v
theories/P_DirPatch.v
theories/M_RepoPatch.v
theories/S_RepoPatch.v
theories/L_RepoPatch.v
theories/P_RepoPatch.v
theories/M_DirPerms.v
theories/S_DirPerms.v
theories/L_DirPerms.v
theories/P_DirPerms.v
theories/M_Location.v
theories/S_Location.v
theories/L_Location.v
theories/P_Location.v
theories/L_Schema.v
theories/P_Schema.v
theories/P_ApiVersion.v
theories/M_Listing.v
theories/S_Listing.v
theories/P_Listing.v
theories/P_Increments.v
theories/P_Forced.v
theories/M_Actions.v
theories/S_Actions.v
theories/L_Actions.v
theories/P_Actions.v
theories/P_Order.v
theories/P_Commands.v
theories/P_ActionsEx.v
theories/P_Clock.v
theories/L_First.v
theories/P_First.v
theories/M_Life.v
theories/S_Life.v
theories/L_Life.v
theories/P_Life.v
theories/M_Attribs.v
theories/M_Detect.v
theories/S_Detect.v
theories/P_Detect.v
theories/M_Power.v
theories/S_Power.v
theories/L_Power.v
theories/L_Power2.v
theories/L_Power3.v
theories/P_Power.v
theories/M_PowerDir.v
theories/L_PowerDir.v
theories/L_PowerDir2.v
theories/L_PowerDir3.v
theories/P_PowerDir.v
theories/S_SelRestore.v
theories/P_SelRestore.v
theories/M_Pid.v
theories/S_Pid.v
theories/P_Pid.v
theories/M_SelCmd.v
theories/S_SelCmd.v
theories/P_SelCmd.v
theories/M_RepoPath.v
theories/S_RepoPath.v
theories/L_RepoPath.v
theories/P_RepoPath.v
theories/M_Average.v
theories/P_Average.v
theories/M_Settings.v
theories/P_Settings.v
theories/S_Attribs.v
theories/P_Attribs.v
theories/L_LifeCut.v
theories/L_LifeSim.v
theories/M_Log.v
theories/S_Log.v
theories/L_Log.v
theories/P_Log.v
theories/M_Requests.v
theories/S_Requests.v
theories/P_Requests.v
theories/M_Complete.v
theories/S_Complete.v
theories/P_Complete.v
theories/M_GzWriter.v
theories/S_GzWriter.v
theories/P_GzWriter.v
theories/M_TestAction.v
theories/S_TestAction.v
theories/P_TestAction.v
theories/M_Plugins.v
theories/P_Plugins.v
theories/M_StatSessions.v
theories/P_StatSessions.v
