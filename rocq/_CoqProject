-Q theories Verif
theories/Base.v
theories/M_Utf8.v
theories/M_Serializer.v
theories/M_Inflate.v
theories/M_Zip.v
theories/S_Utf8.v
theories/S_Serializer.v
theories/S_Inflate.v
theories/S_Zip.v
theories/S_ZipCalls.v
theories/M_Base64.v
theories/S_Base64.v
theories/M_String.v
theories/M_Tokenizer.v
theories/M_Xml.v
theories/S_Xml.v
theories/M_Undo.v
theories/S_Undo.v
theories/M_Float.v
theories/M_MathF.v
theories/M_Rect.v
theories/M_Matrix.v
theories/S_Double.v
theories/S_Matrix.v
theories/S_Transform.v
theories/S_String.v
theories/S_Tokenizer.v
theories/M_Thread.v
theories/S_Thread.v
theories/M_Test.v
theories/S_Integer.v
theories/S_Test.v
theories/M_Hashtable.v
theories/M_Sort.v
theories/M_StringList.v
theories/M_Preferences.v
theories/S_Hashtable.v
theories/S_Preferences.v
theories/M_System.v
theories/S_System.v
theories/S_Sort.v
theories/S_StringList.v
theories/M_Stack.v
theories/S_Stack.v
theories/M_Resource.v
theories/S_Resource.v
theories/S_Rect.v
theories/M_Property.v
theories/S_Property.v
theories/M_PoolLife.v
theories/S_PoolLife.v
theories/M_Point.v
theories/S_Point.v
theories/M_Geometry.v
theories/M_Nurbs.v
theories/S_Nurbs.v
theories/M_MemoryStream.v
theories/S_MemoryStream.v
theories/M_Log.v
theories/S_Log.v
theories/M_Charset.v
theories/M_Diff.v
theories/M_DiffInfo.v
theories/S_Locale.v
theories/M_LinkedList.v
theories/S_LinkedList.v
theories/S_I18n.v
theories/S_Geometry.v
theories/M_Fs.v
theories/S_Fs.v
theories/M_File.v
theories/S_File.v
theories/S_Exception.v
theories/M_Document.v
theories/S_Document.v
theories/S_DiffInfo.v
theories/S_Diff.v
theories/S_Decimal.v
theories/S_Date.v
theories/S_DateFormat.v
theories/S_Crc.v
theories/M_Color.v
theories/S_Color.v
theories/S_Charset.v
theories/S_Char.v
theories/S_ByteArray.v
theories/M_Array.v
theories/S_Array.v
theories/S_Arg.v
theories/L_Bits.v
theories/L_Utf8.v
theories/L_Serializer.v
theories/L_Zip.v
theories/L_Zip2.v
theories/L_Inflate.v
theories/L_Inflate2.v
theories/L_Inflate3.v
theories/L_Inflate4.v
theories/L_Inflate5.v
theories/L_Inflate6.v
theories/L_Inflate7.v
theories/P_Inflate.v
theories/L_Zip3.v
theories/L_Zip4.v
theories/L_Zip5.v
theories/P_Zip.v
theories/L_String.v
theories/L_Tokenizer.v
theories/L_Base64.v
theories/P_Base64.v
theories/L_Xml.v
theories/L_Xml2.v
theories/L_String2.v
theories/L_String3.v
theories/L_String4.v
theories/P_String.v
theories/L_Xml3.v
theories/L_Xml4.v
theories/L_Xml5.v
theories/P_Xml2.v
theories/P_Xml.v
theories/M_Transform.v
theories/L_Float.v
theories/L_Double.v
theories/L_Matrix.v
theories/L_MathF.v
theories/L_Matrix2.v
theories/L_Matrix3.v
theories/L_Grid.v
theories/L_Matrix4.v
theories/L_Matrix5.v
theories/L_Float2.v
theories/L_Color.v
theories/L_Color2.v
theories/L_Color3.v
theories/L_Color4.v
theories/L_Color5.v
theories/L_Matrix6.v
theories/P_Matrix.v
theories/P_MathF.v
theories/L_Geometry.v
theories/L_Transform.v
theories/M_Decimal.v
theories/L_Integer.v
theories/L_Decimal.v
theories/L_Transform2.v
theories/L_Transform3.v
theories/P_Transform.v
theories/M_Wcs.v
theories/P_Wcs.v
theories/P_Utf8.v
theories/L_Undo.v
theories/L_Undo2.v
theories/L_Undo3.v
theories/P_Undo.v
theories/P_Tokenizer.v
theories/L_Thread.v
theories/L_Thread2.v
theories/L_Thread5.v
theories/L_Thread3.v
theories/L_Thread4.v
theories/L_Thread6.v
theories/P_Thread.v
theories/L_Integer2.v
theories/P_Integer.v
theories/P_Test.v
theories/L_Preferences.v
theories/L_Preferences2.v
theories/L_Sort.v
theories/L_Hashtable.v
theories/L_Preferences3.v
theories/L_StringList.v
theories/L_Preferences4.v
theories/L_Preferences5.v
theories/L_Preferences6.v
theories/P_Preferences.v
theories/P_System.v
theories/P_StringList.v
theories/L_Stack.v
theories/P_Stack.v
theories/P_Serializer.v
theories/M_SAXAttributes.v
theories/P_SAXAttributes.v
theories/P_Resource.v
theories/M_RefCount.v
theories/L_RefCount.v
theories/L_RefCount2.v
theories/L_RefCount3.v
theories/P_RefCount.v
theories/L_Rect.v
theories/P_Rect.v
theories/P_Property.v
theories/P_PoolLife.v
theories/P_Point.v
theories/L_Geometry2.v
theories/L_Nurbs.v
theories/L_Nurbs2.v
theories/L_Nurbs3.v
theories/L_Nurbs4.v
theories/L_Nurbs5.v
theories/P_Nurbs.v
theories/P_Nurbs2.v
theories/P_MemoryStream.v
theories/P_Matrix3.v
theories/P_Matrix2.v
theories/M_Math.v
theories/L_Math.v
theories/P_Math.v
theories/P_Log.v
theories/M_Locale.v
theories/P_Locale.v
theories/L_LinkedList.v
theories/L_LinkedList2.v
theories/L_LinkedList3.v
theories/L_LinkedList4.v
theories/L_LinkedList5.v
theories/L_LinkedList6.v
theories/L_LinkedList7.v
theories/L_LinkedList8.v
theories/L_LinkedList9.v
theories/L_LinkedList10.v
theories/L_LinkedList11.v
theories/P_LinkedList.v
theories/M_Inflater.v
theories/P_Inflater.v
theories/M_I18n.v
theories/L_I18n.v
theories/P_I18n.v
theories/P_Hashtable.v
theories/L_Geometry3.v
theories/P_Geometry.v
theories/P_Geometry2.v
theories/P_Geometry5.v
theories/L_Geometry4.v
theories/P_Geometry4.v
theories/P_Geometry3.v
theories/P_Fs.v
theories/P_FsIO.v
theories/L_File.v
theories/L_File2.v
theories/P_File.v
theories/M_Exception.v
theories/P_Exception.v
theories/M_Eigen.v
theories/P_Eigen.v
theories/L_Pi.v
theories/P_Eigen2.v
theories/M_Editable.v
theories/P_Editable.v
theories/P_Document.v
theories/L_Diff.v
theories/P_Diff.v
theories/P_DiffInfo.v
theories/M_Deflater.v
theories/P_Deflater.v
theories/L_Arg.v
theories/P_Arg.v
theories/P_Decimal.v
theories/M_Date.v
theories/L_Date.v
theories/M_DateFormat.v
theories/L_Date2.v
theories/P_Date.v
theories/L_DateFormat.v
theories/P_DateFormat.v
theories/M_Crc.v
theories/L_Crc.v
theories/P_Crc.v
theories/P_Color.v
theories/L_Charset.v
theories/P_Charset.v
theories/M_CharsetReg.v
theories/P_CharsetReg.v
theories/M_Char.v
theories/P_Char.v
theories/M_ByteArray.v
theories/L_ByteArray.v
theories/P_ByteArray.v
theories/L_Array.v
theories/P_Array.v
theories/M_Angle.v
theories/P_Angle.v
theories/M_Arc.v
theories/P_Arc.v
