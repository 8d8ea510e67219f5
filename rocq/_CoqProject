-Q theories Verif
theories/Base.v
theories/Category.v
theories/Spec_Category.v
theories/CategoryProofs.v
theories/Tile.v
theories/TileSet.v
theories/Spec_Tile.v
theories/TileSetFacts.v
theories/PoolProofs.v
theories/Win.v
theories/Spec_Win.v
theories/WinFacts.v
theories/WinProofs.v
theories/TileSetOps.v
theories/Distinct.v
theories/Spec_Distinct.v
theories/DistinctProofs.v
theories/Waiting.v
theories/Spec_Waiting.v
theories/WaitingFacts.v
theories/WaitingPM.v
theories/WaitingBrute.v
theories/WaitingHeur.v
theories/WaitingHeurTop.v
theories/WaitingSize.v
theories/Spec_Hand.v
theories/WaitingTop.v
theories/Prop_Category.v
theories/Prop_Tile.v
theories/Prop_Win.v
theories/Prop_Waiting.v
theories/Parse.v
theories/Spec_Parse.v
theories/ParseProofs.v
theories/Prop_Parse.v
theories/Text.v
theories/Tenhou.v
theories/TenhouProofs.v
theories/Spec_Meld.v
theories/MeldProofs.v
theories/Prop_Meld.v
theories/Event.v
theories/State.v
theories/Spec_Log.v
theories/StateProofs.v
theories/Prop_State.v
theories/Stage.v
theories/Spec_Stage.v
theories/StageProofs.v
theories/Prop_Stage.v
theories/Reader.v
theories/Prop_Reader.v
theories/Comb.v
theories/Prop_Comb.v
theories/Counter.v
theories/Const.v
theories/Prop_Const.v
theories/Distribution.v
theories/Prop_Distribution.v
theories/Builder.v
theories/Prop_Builder.v
theories/Transfer.v
theories/Spec_Transfer.v
theories/TransferProofs.v
theories/Prop_Transfer.v
theories/Value.v
theories/Universe.v
theories/Spec_Universe.v
theories/UniverseProofs.v
theories/ExecutorProofs.v
theories/Translator.v
theories/TenhouCommands.v
theories/Prop_Executor.v
theories/CommandProofs.v
theories/Prop_Commands.v
theories/Spec_Play.v
theories/CommandState.v
theories/CommandPlay.v
theories/PlaySteps.v
theories/PlayProofs.v
theories/Prop_Play.v
theories/Prop_Hand.v
theories/FinishProofs.v
theories/Spec_Score.v
theories/Prop_Score.v
theories/Prop_Outcome.v
theories/Spec_Dispatch.v
theories/Prop_Dispatch.v
theories/Json.v
theories/JsonProofs.v
theories/Record.v
theories/Spec_Record.v
theories/Prop_Record.v
theories/Prop_Flatten.v
theories/Checker.v
theories/Spec_Checker.v
theories/CheckerProofs.v
theories/CheckerHand.v
theories/CheckerRows.v
theories/CheckerReport.v
theories/CheckerGame.v
theories/Prop_Checker.v
theories/CheckerTexts.v
theories/Prop_CheckerWitness.v
theories/Paifu.v
theories/Spec_Paifu.v
theories/PaifuProofs.v
theories/Prop_Paifu.v
theories/Prop_PaifuExample.v
theories/Spec_Read.v
theories/Prop_Read.v
theories/Spec_Header.v
theories/Prop_Header.v
theories/Url.v
theories/Spec_Url.v
theories/Prop_Url.v
theories/Show.v
theories/Spec_Show.v
theories/ShowProofs.v
theories/Prop_Show.v
theories/Table.v
theories/Spec_Table.v
theories/Prop_Table.v
theories/Report.v
theories/Spec_Report.v
theories/Prop_Report.v
theories/WinRate.v
theories/Spec_WinRate.v
theories/Prop_WinRate.v
theories/Prop_Drop.v
theories/Spec_Convert.v
theories/ConvertProofs.v
theories/Prop_Convert.v
theories/Csv.v
theories/Spec_Csv.v
theories/CsvProofs.v
theories/CsvValues.v
theories/CsvConverted.v
theories/Spec_Seats.v
theories/SeatsProofs.v
theories/Prop_Csv.v
theories/Readme.v
theories/Spec_Readme.v
theories/Prop_Readme.v
theories/StateCsv.v
theories/Spec_StateCsv.v
theories/StateCsvProofs.v
theories/Prop_StateCsv.v
theories/Session.v
theories/Spec_Session.v
theories/Prop_Session.v
theories/Export.v
theories/Spec_Export.v
theories/Prop_Export.v
theories/Spec_Html.v
theories/Html.v
theories/HtmlProofs.v
theories/Prop_Html.v
theories/Logs.v
theories/Conformance.v
theories/LogCheck.v
theories/Prop_Logs.v
theories/Spec_Strict.v
theories/StrictProofs.v
theories/StrictCheck.v
theories/Prop_Strict.v
theories/Spec_Mixed.v
theories/Prop_Mixed.v
theories/Xml.v
theories/Spec_Xml.v
theories/XmlProofs.v
theories/XmlConverse.v
theories/LogTexts.v
theories/FromText.v
theories/Prop_Xml.v
theories/Prop_Red.v
theories/Spec_Complete.v
theories/Prop_Complete.v
theories/Prop_Words.v
theories/Spec_Turns.v
theories/TurnsFacts.v
theories/CheckerErrors.v
theories/Prop_Turns.v
theories/TurnsCheck.v
theories/Prop_TurnsPage.v
theories/Prop_TurnsExample.v
theories/Prop_Count.v
theories/CheckScript.v
theories/Prop_CheckScript.v
theories/ConvertScript.v
theories/Prop_ConvertScript.v
theories/Spec_Advice.v
theories/Prop_Advice.v
theories/Prop_AdviceExample.v
theories/Prop_Rounding.v
theories/Spec_Moment.v
theories/Prop_Moment.v
theories/Spec_Wall.v
theories/Prop_Wall.v
theories/Prop_WallLogs.v
theories/PickRate.v
theories/Spec_PickRate.v
theories/Prop_PickRate.v
theories/Prop_Bound.v
theories/Prop_CsvTypes.v
theories/CheckerFirst.v
theories/Prop_Stops.v
theories/Spec_Refused.v
theories/Prop_Refused.v
theories/Spec_Rename.v
theories/Prop_Rename.v
theories/Prop_RedHand.v
theories/RedKeys.v
theories/Prop_Seen.v
theories/Prop_Hindsight.v
theories/Prop_Peeking.v
theories/Prop_Seats.v
theories/Prop_Unicode.v
theories/Prop_StateRows.v
theories/Prop_Whose.v
theories/Choice.v
theories/Prop_Choice.v
theories/Prop_Decode.v
