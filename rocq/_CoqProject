-Q theories Verif
theories/Base.v
theories/Str.v
theories/Multi.v
theories/Color.v
theories/Oer.v
theories/Crc.v
theories/Raster.v
theories/Font.v
theories/Tfon.v
theories/Graphic.v
theories/Config.v
theories/Sign.v
theories/Pattern.v
theories/Render.v
theories/Tests_Multi.v
theories/Tests_Sign.v
theories/Spec_Multi.v
theories/Proofs_Str.v
theories/Proofs_Split.v
theories/Proofs_Parse.v
theories/Proofs_Tag.v
theories/Proofs_Print.v
theories/Proofs_Case.v
theories/Proofs_Norm.v
theories/Proofs_Hex.v
theories/Properties_Multi.v
theories/Spec_Color.v
theories/Proofs_Color.v
theories/Properties_Color.v
theories/Spec_Font.v
theories/Spec_Tfon.v
theories/Proofs_Oer.v
theories/Proofs_Font.v
theories/Proofs_Glyph.v
theories/Proofs_Table.v
theories/Proofs_Tfon.v
theories/Spec_Crc.v
theories/Proofs_Crc.v
theories/Properties_Font.v
theories/Spec_TfonRead.v
theories/Proofs_TfonRead.v
theories/Properties_Tfon.v
theories/Spec_Graphic.v
theories/Spec_Sign.v
theories/Proofs_Graphic.v
theories/Proofs_Sign.v
theories/Proofs_Build.v
theories/Examples_Sign.v
theories/Properties_Sign.v
theories/Proofs_Iter.v
theories/Spec_Render.v
theories/Proofs_Machine.v
theories/Proofs_Pages.v
theories/Proofs_Reach.v
theories/Proofs_Ends.v
theories/Proofs_Ext.v
theories/Proofs_Count.v
theories/Proofs_Render.v
theories/Properties_Render.v
theories/Proofs_Modes.v
theories/Spec_Layout.v
theories/Spec_Draw.v
theories/Proofs_Horiz.v
theories/Proofs_Vert.v
theories/Proofs_Layout.v
theories/Proofs_Place.v
theories/Proofs_Draw.v
theories/Properties_Layout.v
theories/Spec_Page.v
theories/Proofs_Each.v
theories/Proofs_Page.v
theories/Proofs_Orderly.v
theories/Proofs_Blank.v
theories/Proofs_Cover.v
theories/Properties_Page.v
theories/Spec_Pattern.v
theories/Spec_Safe.v
theories/Spec_Fail.v
theories/Proofs_Safe.v
theories/Proofs_Text.v
theories/Proofs_Fail.v
theories/Proofs_Verdict.v
theories/Proofs_First.v
theories/Proofs_Unique.v
theories/Proofs_Rows.v
theories/Proofs_Pattern.v
theories/Proofs_Fill.v
theories/Proofs_Lines.v
theories/Properties_Pattern.v
theories/Properties_Safe.v
theories/Properties_Fail.v
theories/Properties_Draw.v
theories/Properties_Rows.v
theories/Proofs_Release.v
theories/Properties_Release.v
theories/Geometry.v
theories/Proofs_F32.v
theories/Proofs_Axis.v
theories/Spec_Geometry.v
theories/Proofs_Geometry.v
theories/Proofs_Exact.v
theories/Properties_Geometry.v
theories/Spec_Same.v
theories/Proofs_Tail.v
theories/Spec_Join.v
theories/Proofs_Join.v
theories/Proofs_Same.v
theories/Proofs_Joined.v
theories/Proofs_Regular.v
theories/Properties_Same.v
theories/Bmp.v
theories/Spec_Bmp.v
theories/Proofs_Bmp.v
theories/Properties_Bmp.v
theories/Errors.v
theories/Spec_Errors.v
theories/Proofs_Errors.v
theories/Properties_Errors.v
theories/Proofs_Default.v
theories/Properties_Default.v
theories/Spec_Lines.v
theories/Proofs_Cut.v
theories/Proofs_Extract.v
theories/Spec_Reached.v
theories/Proofs_Reached.v
theories/Properties_Lines.v
theories/Spec_Fit.v
theories/Proofs_Fit.v
theories/Proofs_Grow.v
theories/Proofs_Grown.v
theories/Proofs_FitFill.v
theories/Properties_Fit.v
theories/Spec_Wide.v
theories/Proofs_Wide.v
theories/Properties_Wide.v
theories/Spec_Gamut.v
theories/Proofs_Gamut.v
theories/Properties_Gamut.v
theories/Spec_Follow.v
theories/Proofs_Follow.v
theories/Properties_Follow.v
theories/Spec_Alike.v
theories/Proofs_Alike.v
theories/Properties_Alike.v
theories/Proofs_Recase.v
theories/Properties_Recase.v
theories/Spec_Repaint.v
theories/Proofs_Repaint.v
theories/Properties_Repaint.v
theories/Spec_Move.v
theories/Proofs_Move.v
theories/Properties_Move.v
theories/Spec_Embed.v
theories/Proofs_Embed.v
theories/Properties_Embed.v
theories/Spec_Face.v
theories/Proofs_Face.v
theories/Properties_Face.v
theories/Spec_Sections.v
theories/Proofs_Sections.v
theories/Properties_Sections.v
theories/Spec_Spell.v
theories/Proofs_Spell.v
theories/Properties_Spell.v
theories/Spec_Redundant.v
theories/Proofs_Redundant.v
theories/Properties_Redundant.v
theories/Spec_Overlap.v
theories/Proofs_Overlap.v
theories/Properties_Overlap.v
theories/Spec_Swap.v
theories/Proofs_Swap.v
theories/Properties_Swap.v
theories/Spec_Hollow.v
theories/Proofs_Hollow.v
theories/Properties_Hollow.v
theories/Spec_Seam.v
theories/Proofs_Seam.v
theories/Properties_Seam.v
theories/Spec_Capable.v
theories/Proofs_Capable.v
theories/Properties_Capable.v
theories/Spec_Below.v
theories/Proofs_Below.v
theories/Properties_Below.v
theories/Spec_Parts.v
theories/Proofs_Parts.v
theories/Properties_Parts.v
theories/Spec_Beside.v
theories/Proofs_Beside.v
theories/Properties_Beside.v
theories/Spec_Apart.v
theories/Proofs_Apart.v
theories/Properties_Apart.v
theories/Spec_Longer.v
theories/Proofs_Longer.v
theories/Properties_Longer.v
theories/Spec_Above.v
theories/Proofs_Above.v
theories/Properties_Above.v
theories/Spec_Ahead.v
theories/Proofs_Ahead.v
theories/Properties_Ahead.v
theories/Spec_Within.v
theories/Proofs_Within.v
theories/Proofs_Amid.v
theories/Properties_Within.v
theories/Spec_Rejoin.v
theories/Proofs_Rejoin.v
theories/Properties_Rejoin.v
theories/Proofs_Given.v
theories/Properties_Given.v
theories/Proofs_Sheets.v
theories/Properties_Sheets.v
theories/Spec_Bones.v
theories/Proofs_Bones.v
theories/Properties_Bones.v
theories/Proofs_Tally.v
theories/Properties_Tally.v
