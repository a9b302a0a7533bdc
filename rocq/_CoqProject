-Q theories Verif
theories/Base.v
theories/M_Color.v
theories/M_Composite.v
theories/S_Color.v
theories/S_Composite.v
theories/L_Word.v
theories/L_Color.v
theories/L_Composite.v
theories/L_Blend.v
theories/L_HSV.v
theories/L_Modes.v
theories/P_Color.v
theories/P_Extent.v
theories/P_Composite.v
theories/M_Rect.v
theories/S_Rect.v
theories/L_Rect.v
theories/M_Pix.v
theories/S_Pix.v
theories/L_Pix.v
theories/P_Pix.v
theories/M_Image.v
theories/S_Image.v
theories/L_Image.v
theories/P_Image.v
theories/L_List.v
theories/M_Reader.v
theories/M_Rle.v
theories/S_Rle.v
theories/L_Reader.v
theories/L_Rle.v
theories/L_Rle2.v
theories/L_Rle3.v
theories/P_Rle.v
theories/M_Compressed.v
theories/S_Compressed.v
theories/L_Compressed.v
theories/P_Compressed.v
theories/M_Groups.v
theories/M_Monad.v
theories/M_Decode.v
theories/S_Groups.v
theories/L_Groups.v
theories/L_Groups2.v
theories/L_Groups3.v
theories/P_Groups.v
theories/M_Encode.v
theories/S_String.v
theories/S_Encode.v
theories/L_String.v
theories/L_Encode.v
theories/P_String.v
theories/L_Wp.v
theories/L_Decode.v
theories/L_Decode2.v
theories/L_Piece.v
theories/L_Decode3.v
theories/S_Decode.v
theories/L_Words.v
theories/L_Decode4.v
theories/L_Fuel.v
theories/P_Decode.v
theories/L_Calls.v
theories/P_Write.v
theories/L_Sticky.v
theories/S_Config.v
theories/L_Config.v
theories/L_Run.v
theories/S_File.v
theories/L_File.v
theories/S_Layout.v
theories/S_Tree.v
theories/L_Emit.v
theories/L_Layout.v
theories/L_Grid.v
theories/S_Linked.v
theories/L_Linked.v
theories/L_Trip.v
theories/L_Trip2.v
theories/L_Trip3.v
theories/L_Trip4.v
theories/S_Trip.v
theories/L_Trip5.v
theories/L_Trip6.v
theories/P_Layout.v
theories/P_Trip.v
theories/P_Config.v
theories/P_DecCfg.v
theories/M_Sched.v
theories/P_Sched.v
theories/P_File.v
theories/M_Ora.v
theories/S_Ora.v
theories/L_Ora.v
theories/P_OraDec.v
theories/L_Ora2.v
theories/P_OraEnc.v
theories/P_OraThumb.v
theories/M_Text.v
theories/S_Text.v
theories/L_Text.v
theories/L_Text2.v
theories/L_Text3.v
theories/P_Text.v
theories/P_TextParse.v
theories/M_Paths.v
theories/P_Paths.v
theories/P_Accept.v
theories/P_Meaning.v
theories/M_Misc.v
theories/P_Misc.v
theories/P_Luma.v
theories/S_Props.v
theories/S_Accept.v
theories/S_Meaning.v
theories/P_Props.v
theories/S_Markup.v
theories/S_Parasite.v
theories/M_Strings.v
theories/P_Parasite.v
theories/P_Markup.v
theories/P_Strings.v
theories/P_Straight.v
theories/P_Vectors.v
theories/S_Kinds.v
theories/P_Kinds.v
theories/S_Render.v
theories/P_Render.v
theories/S_Raw.v
theories/P_Raw.v
theories/S_Spell.v
theories/P_Spell.v
theories/M_Float.v
theories/P_Opacity.v
theories/S_Whole.v
theories/P_Whole.v
theories/S_Model.v
theories/P_Model.v
theories/M_Format.v
theories/P_Format.v
theories/S_Written.v
theories/L_Written.v
theories/P_Written.v
theories/M_OraWrite.v
theories/S_OraWrite.v
theories/P_OraWrite.v
theories/L_Extend.v
theories/P_Extend.v
theories/S_Resave.v
theories/L_Resave.v
theories/P_Resave.v
theories/S_Panics.v
theories/P_Panics.v
theories/L_Readable.v
theories/S_OraDoc.v
theories/L_OraDoc.v
theories/P_OraDoc.v
theories/S_Alike.v
theories/L_Alike.v
theories/P_Alike.v
theories/S_Looks.v
theories/P_Looks.v
theories/S_OraRead.v
theories/P_OraRead.v
theories/S_OraLooks.v
theories/P_OraLooks.v
theories/P_MinMax.v
theories/S_Loads.v
theories/P_Loads.v
theories/S_OraSave.v
theories/P_OraSave.v
