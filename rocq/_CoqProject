-Q theories Verif
theories/Base.v
theories/GoStrings.v
theories/M_Tree.v
theories/S_Route.v
theories/S_Path.v
theories/P_TreeFind.v
theories/P_TreeRep.v
theories/P_TreeSpec.v
theories/P_Path.v
theories/Props_Tree.v
theories/M_RegTree.v
theories/P_RegTree.v
theories/Props_RegTree.v
theories/GoErrors.v
theories/M_Pipeline.v
theories/S_Pipeline.v
theories/P_Pipeline.v
theories/Props_Pipeline.v
theories/GoSlices.v
theories/M_Router.v
theories/S_Router.v
theories/P_Slices.v
theories/P_Router.v
theories/P_Router2.v
theories/P_Router3.v
theories/Props_Router.v
theories/M_Auth.v
theories/S_Auth.v
theories/P_Auth.v
theories/Props_Auth.v
theories/M_Ctx.v
theories/S_Ctx.v
theories/Props_Ctx.v
theories/M_Text.v
theories/Props_Text.v
theories/GoInt.v
theories/M_Range.v
theories/S_Range.v
theories/P_Range.v
theories/Props_Range.v
theories/M_Cond.v
theories/S_Cond.v
theories/P_Cond.v
theories/Props_Cond.v
theories/M_Sniff.v
theories/Props_Sniff.v
theories/M_Content.v
theories/S_Content.v
theories/Props_Content.v
theories/GoPath.v
theories/M_Static.v
theories/S_Static.v
theories/P_GoPath.v
theories/Props_Static.v
theories/M_Logger.v
theories/S_Logger.v
theories/Props_Logger.v
theories/M_Run.v
theories/S_Run.v
theories/Props_Run.v
theories/M_Race.v
theories/S_Race.v
theories/Props_Race.v
theories/P_Router4.v
theories/S_Sniff.v
theories/Props_Sniff2.v
theories/Props_Content2.v
theories/Props_Static2.v
theories/M_Cookie.v
theories/Props_Cookie.v
theories/Props_Logger2.v
theories/M_Serve.v
theories/S_Serve.v
theories/P_Serve.v
theories/P_Serve2.v
theories/P_Serve3.v
theories/Props_Serve.v
theories/M_Mount.v
theories/S_Mount.v
theories/P_Mount.v
theories/Props_Mount.v
theories/M_Share.v
theories/S_Share.v
theories/P_Share.v
theories/Props_Share.v
theories/Props_Share2.v
theories/Props_Share3.v
theories/M_Group.v
theories/S_Group.v
theories/P_Group.v
theories/P_Group2.v
theories/P_Group3.v
theories/P_Group4.v
theories/P_Group5.v
theories/Props_Group.v
theories/Props_Group2.v
theories/Props_Group3.v
theories/M_SetCookie.v
theories/S_SetCookie.v
theories/Props_SetCookie.v
theories/M_UniqId.v
theories/P_UniqId.v
theories/P_UniqId2.v
theories/Props_UniqId.v
theories/M_Challenge.v
theories/S_Challenge.v
theories/Props_Challenge.v
theories/M_Clone.v
theories/S_Clone.v
theories/Props_Clone.v
theories/M_Locks.v
theories/S_Locks.v
theories/P_Locks.v
theories/Props_Locks.v
theories/M_Life.v
theories/S_Life.v
theories/P_Life.v
theories/Props_Life.v
theories/M_Pool.v
theories/S_Pool.v
theories/P_Pool.v
theories/Props_Pool.v
theories/S_Copies.v
theories/P_Copies.v
theories/Props_Copies.v
theories/S_Choice.v
theories/P_Choice.v
theories/Props_Choice.v
theories/M_Server.v
theories/S_Server.v
theories/P_Server.v
theories/Props_Server.v
theories/S_Exposed.v
theories/P_Exposed.v
theories/P_Dotted.v
theories/Props_Exposed.v
theories/S_Paths.v
theories/Props_Paths.v
theories/Props_Race2.v
theories/S_LogValues.v
theories/Props_LogValues.v
theories/S_Answer.v
theories/Props_Answer.v
theories/Props_Stop.v
theories/S_Names.v
theories/Props_Names.v
theories/Props_MountAnswer.v
theories/S_Follow.v
theories/Props_Follow.v
theories/S_Obeys.v
theories/Props_Obeys.v
theories/S_History.v
theories/Props_History.v
theories/M_AuthMaps.v
theories/S_AuthMaps.v
theories/Props_AuthMaps.v
theories/M_Report.v
theories/S_Report.v
theories/Props_Report.v
theories/S_Listing.v
theories/Props_Listing.v
theories/Props_GroupDown.v
theories/M_Readdir.v
theories/S_Readdir.v
theories/Props_Readdir.v
theories/M_ReqLog.v
theories/S_ReqLog.v
theories/Props_ReqLog.v
theories/Props_Index.v
theories/S_Starred.v
theories/Props_Starred.v
theories/M_Site.v
theories/S_Site.v
theories/P_Site.v
theories/P_Site2.v
theories/Props_Site.v
theories/Props_Site2.v
theories/M_Print.v
theories/S_Print.v
theories/P_Print.v
theories/Props_Print.v
theories/GoTime.v
theories/S_Date.v
theories/P_Date.v
theories/P_Date2.v
theories/Props_Date.v
theories/M_Stamp.v
theories/S_Stamp.v
theories/P_Stamp.v
theories/Props_Stamp.v
theories/Props_Undated.v
theories/M_Examples.v
theories/S_Examples.v
theories/Props_Examples.v
theories/S_Examples2.v
theories/Props_Examples2.v
theories/Props_Examples3.v
