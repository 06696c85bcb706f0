-Q theories Verif
theories/Base.v
theories/M_Ansi.v
theories/M_App.v
theories/M_Backend.v
theories/M_Block.v
theories/M_Buffer.v
theories/M_Builder.v
theories/M_Cmd.v
theories/M_Combin.v
theories/M_Decode.v
theories/M_Example.v
theories/M_ExampleGit.v
theories/M_ExampleList.v
theories/M_ExampleThrobber.v
theories/M_Float.v
theories/M_Gauge.v
theories/M_Geom.v
theories/M_Input.v
theories/M_InputMem.v
theories/M_KeyTable.v
theories/M_Layout.v
theories/M_Lines.v
theories/M_List.v
theories/M_Listing.v
theories/M_MouseName.v
theories/M_Options.v
theories/M_Output.v
theories/M_Popup.v
theories/M_Reflow.v
theories/M_Resize.v
theories/M_Rounded.v
theories/M_Scroll.v
theories/M_Slice.v
theories/M_Solver.v
theories/M_Splitted.v
theories/M_Style.v
theories/M_Tabs.v
theories/M_Text.v
theories/M_Throbber.v
theories/M_ThrobberGrid.v
theories/M_Typing.v
theories/M_Uniseg.v
theories/M_Utf8.v
theories/M_Var.v
theories/M_View.v
theories/M_View64.v
theories/M_Widget.v
theories/M_Windows.v
theories/P_Add.v
theories/P_Addsame.v
theories/P_Alike.v
theories/P_Ansi.v
theories/P_Apart.v
theories/P_App.v
theories/P_AppEnd.v
theories/P_AppIds.v
theories/P_AppLog.v
theories/P_AppRun.v
theories/P_Art.v
theories/P_Attr.v
theories/P_Base.v
theories/P_Bland.v
theories/P_Block.v
theories/P_Buffer.v
theories/P_Chance.v
theories/P_Count.v
theories/P_Create.v
theories/P_Cycle.v
theories/P_Decode.v
theories/P_Diff.v
theories/P_Diffs.v
theories/P_Draw.v
theories/P_Ends.v
theories/P_Exact.v
theories/P_Fixed.v
theories/P_Float.v
theories/P_Frame.v
theories/P_Input.v
theories/P_InputMem.v
theories/P_InputView.v
theories/P_Layout.v
theories/P_Ledger.v
theories/P_List.v
theories/P_Netted.v
theories/P_Network.v
theories/P_Noted.v
theories/P_Paragraph.v
theories/P_Place.v
theories/P_Placed.v
theories/P_Print.v
theories/P_Priority.v
theories/P_Redraw.v
theories/P_Reflow.v
theories/P_Rounded.v
theories/P_Row.v
theories/P_Same.v
theories/P_Scroll.v
theories/P_Session.v
theories/P_SetString.v
theories/P_Simplex.v
theories/P_Step.v
theories/P_Sum.v
theories/P_System.v
theories/P_Tableau.v
theories/P_Text.v
theories/P_Tile.v
theories/P_Utf8.v
theories/P_Walks.v
theories/P_Wide.v
theories/S_Ansi.v
theories/S_Block.v
theories/S_Buffer.v
theories/S_Builder.v
theories/S_Chance.v
theories/S_Combining.v
theories/S_Command.v
theories/S_Display.v
theories/S_Entry.v
theories/S_Example.v
theories/S_ExampleList.v
theories/S_Field.v
theories/S_Fixed.v
theories/S_Frame.v
theories/S_Framed.v
theories/S_Geom.v
theories/S_Input.v
theories/S_Items.v
theories/S_Joint.v
theories/S_Keys.v
theories/S_Layout.v
theories/S_Line.v
theories/S_Listing.v
theories/S_Mouse.v
theories/S_Options.v
theories/S_Output.v
theories/S_Paragraph.v
theories/S_Place.v
theories/S_Priority.v
theories/S_Reflow.v
theories/S_Rounded.v
theories/S_Screen.v
theories/S_Session.v
theories/S_Solver.v
theories/S_Stateful.v
theories/S_Stream.v
theories/S_Terminal.v
theories/S_Text.v
theories/S_ThrobberScreen.v
theories/S_Titles.v
theories/S_Typed.v
theories/S_Typing.v
theories/S_Wide.v
theories/S_Windows.v
theories/T_After.v
theories/T_Again.v
theories/T_Apart.v
theories/T_App.v
theories/T_AppRuns.v
theories/T_Block.v
theories/T_Buffer.v
theories/T_Builder.v
theories/T_Chance.v
theories/T_Cmd.v
theories/T_Combin.v
theories/T_Combining.v
theories/T_Decode.v
theories/T_Details.v
theories/T_Ends.v
theories/T_Entry.v
theories/T_Exact.v
theories/T_Example.v
theories/T_ExampleGit.v
theories/T_ExampleGitHigh.v
theories/T_ExampleGitRows.v
theories/T_ExampleList.v
theories/T_ExampleListRun.v
theories/T_ExampleRun.v
theories/T_ExampleThrobber.v
theories/T_Field.v
theories/T_Fixed.v
theories/T_Frame.v
theories/T_Framed.v
theories/T_Gauge.v
theories/T_Geom.v
theories/T_Input.v
theories/T_InputMem.v
theories/T_Items.v
theories/T_Joint.v
theories/T_KeyName.v
theories/T_Layout.v
theories/T_Leaving.v
theories/T_LeavingExamples.v
theories/T_Lines.v
theories/T_List.v
theories/T_Listed.v
theories/T_Listing.v
theories/T_Many.v
theories/T_Mouse.v
theories/T_MouseName.v
theories/T_Named.v
theories/T_NoRoom.v
theories/T_Options.v
theories/T_Output.v
theories/T_Paragraph.v
theories/T_Percent.v
theories/T_Place.v
theories/T_Popup.v
theories/T_Print.v
theories/T_Priority.v
theories/T_Race.v
theories/T_Reflow.v
theories/T_Resize.v
theories/T_Rounded.v
theories/T_Screen.v
theories/T_ScreenRun.v
theories/T_Scroll.v
theories/T_Scrolled.v
theories/T_Shown.v
theories/T_Sizes.v
theories/T_Solver.v
theories/T_Splitted.v
theories/T_Stateful.v
theories/T_Stream.v
theories/T_Style.v
theories/T_Tabs.v
theories/T_Terminal.v
theories/T_Text.v
theories/T_TextRows.v
theories/T_Throbber.v
theories/T_ThrobberBoxes.v
theories/T_ThrobberGrid.v
theories/T_ThrobberRun.v
theories/T_ThrobberScreen.v
theories/T_Ticking.v
theories/T_Tile.v
theories/T_Titles.v
theories/T_Typed.v
theories/T_Typing.v
theories/T_Var.v
theories/T_View.v
theories/T_View64.v
theories/T_Window.v
theories/T_Windows.v
theories/T_WithTerminal.v
