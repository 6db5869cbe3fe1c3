-Q theories Verif
theories/Base.v
theories/Sexpr_Model.v
theories/Sexpr_Spec.v
theories/Sexpr_Proofs.v
theories/Clone_Model.v
theories/Clone_Spec.v
theories/Clone_Proofs.v
theories/Sexpr_Props.v
theories/Dispatch_Model.v
theories/Dispatch_Spec.v
theories/Dispatch_Proofs.v
theories/Dispatch_Props.v
theories/Csv_Model.v
theories/Csv_Spec.v
theories/Csv_Proofs.v
theories/Data_Model.v
theories/Data_Spec.v
theories/Data_Proofs.v
theories/Csv_Props.v
theories/Utf8_Model.v
theories/Utf8_Spec.v
theories/Utf8_Proofs.v
theories/Utf8_Props.v
theories/Json_Model.v
theories/Json_Spec.v
theories/Json_Proofs.v
theories/Geojson_Model.v
theories/Geojson_Spec.v
theories/Geojson_Proofs.v
theories/Json_Props.v
theories/Plist_Model.v
theories/Plist_Spec.v
theories/Plist_Proofs.v
theories/Plist_Props.v
theories/Num.v
theories/Scale_Model.v
theories/Scale_Spec.v
theories/Scale_Proofs.v
theories/Scale_Proofs2.v
theories/Scale_Proofs3.v
theories/Scale_Proofs4.v
theories/Scale_Proofs5.v
theories/Scale_Proofs6.v
theories/Scale_Proofs7.v
theories/Scale_Props.v
theories/Num_Facts.v
theories/Units_Model.v
theories/Units_Spec.v
theories/Units_Proofs.v
theories/Units_Props.v
theories/Time_Model.v
theories/Time_Spec.v
theories/Time_Proofs.v
theories/Time_Props.v
theories/Str_Model.v
theories/Str_Spec.v
theories/Str_Proofs.v
theories/Str_Props.v
theories/Buffer_Model.v
theories/Buffer_Spec.v
theories/Buffer_Proofs.v
theories/Buffer_Props.v
theories/Color_Model.v
theories/Color_Spec.v
theories/Color_Proofs.v
theories/Color_Props.v
theories/Geo_Model.v
theories/Geo_Spec.v
theories/Geo_Proofs.v
theories/Geo_Props.v
theories/Dec.v
theories/Svg_Model.v
theories/Svg_Spec.v
theories/Svg_Embed.v
theories/Svg_Proofs.v
theories/Svg_Props.v
theories/Legend_Model.v
theories/Legend_Spec.v
theories/Legend_Proofs.v
theories/Legend_Props.v
theories/Text_Model.v
theories/Text_Spec.v
theories/Text_Proofs.v
theories/Text_Props.v
theories/Format_Model.v
theories/Format_Spec.v
theories/Format_Proofs.v
theories/Format_Props.v
theories/Image_Model.v
theories/Image_Props.v
theories/Cmd_Model.v
theories/Cmd_Spec.v
theories/Cmd_Proofs.v
theories/Style_Model.v
theories/Plot_Model.v
theories/Plot_Spec.v
theories/Plot_Proofs.v
theories/Plot_Parts.v
theories/Plot_Loops.v
theories/Plot_Props.v
theories/Plot_Props2.v
theories/Plot_Props3.v
theories/Plot_Props4.v
theories/Plot_Inline.v
theories/Plot_Props5.v
theories/Axis_Model.v
theories/Eval_Model.v
theories/Range_Spec.v
theories/Range_Proofs.v
theories/Range_Draw.v
theories/Demo.v
theories/Range_Props.v
theories/Range_Props2.v
theories/Range_Props3.v
theories/Range_Examples.v
theories/Plot_Examples.v
theories/Axis_Spec.v
theories/Axis_Table.v
theories/Axis_Place.v
theories/Axis_Proofs.v
theories/Axis_Props.v
theories/Axis_Props2.v
theories/Axis_Examples.v
theories/Axis_Look_Spec.v
theories/Axis_Look_Proofs.v
theories/Axis_Look.v
theories/Eval_Spec.v
theories/Eval_Proofs.v
theories/Eval_Props.v
theories/Eval_Props2.v
theories/Eval_Legend.v
theories/Eval_Props3.v
theories/Eval_Props4.v
theories/Eval_Examples.v
theories/Style_Spec.v
theories/Style_Props.v
theories/Style_Props2.v
theories/Source_Spec.v
theories/Source_Props.v
theories/Source_Examples.v
theories/Source_Props2.v
theories/Draw_Spec.v
theories/Draw_Props.v
theories/Draw_Examples.v
theories/Value_Spec.v
theories/Value_Props.v
theories/File_Model.v
theories/File_Spec.v
theories/File_Props.v
theories/File_Props2.v
theories/Glyph_Model.v
theories/Glyph_Spec.v
theories/Glyph_Props.v
theories/Opt_Model.v
theories/Opt_Spec.v
theories/Opt_Props.v
theories/Page_Props.v
theories/Format_Props2.v
theories/Text_Props2.v
theories/Exc_Model.v
theories/Exc_Spec.v
theories/Exc_Props.v
theories/Stream_Model.v
theories/Stream_Spec.v
theories/Stream_Props.v
theories/Random_Model.v
theories/Random_Spec.v
theories/Random_Props.v
theories/Raster_Model.v
theories/Raster_Spec.v
theories/Raster_Props.v
theories/TimeText_Model.v
theories/TimeText_Spec.v
theories/TimeText_Props.v
theories/ScaleOpt_Spec.v
theories/ScaleOpt_Props.v
theories/Whole_Spec.v
theories/Whole_Svg.v
theories/Whole_Proofs.v
theories/Whole_Props.v
theories/Whole_Spec2.v
theories/Whole_Series.v
theories/Whole_Series2.v
theories/Whole_Svg2.v
theories/Whole_Props2.v
theories/PlistSay_Model.v
theories/PlistSay_Spec.v
theories/PlistSay_Proofs.v
theories/PlistSay_Proofs2.v
theories/PlistSay_Props.v
theories/Say_Model.v
theories/Say_Model2.v
theories/Say_Spec.v
theories/Say_Proofs.v
theories/Say_Props.v
theories/Say_Props2.v
theories/Say_Props3.v
theories/Say_Props4.v
theories/PlistSay_Props2.v
theories/Tight_Props.v
theories/Font_Model.v
theories/Font_Spec.v
theories/Font_Props.v
theories/Metric_Model.v
theories/Metric_Props.v
theories/Png_Model.v
theories/Png_Props.v
theories/Handle_Model.v
theories/Handle_Props.v
theories/Handle_Props2.v
theories/Load_Model.v
theories/Load_Props.v
theories/Whole_Examples2.v
theories/Safe_Spec.v
theories/Safe_Proofs.v
theories/Safe_Proofs2.v
theories/Safe_Proofs3.v
theories/Safe_Props.v
theories/Safe_Props2.v
theories/Safe_Props3.v
theories/Ends_Spec.v
theories/Ends_Proofs.v
theories/Ends_Proofs2.v
theories/Ends_Proofs3.v
theories/Ends_Proofs4.v
theories/Ends_Props.v
theories/Ends_Props2.v
theories/Release_Model.v
theories/Release_Spec.v
theories/Release_Proofs.v
theories/Release_Proofs2.v
theories/Release_Props.v
theories/Order_Spec.v
theories/Order_Proofs.v
theories/Order_Proofs2.v
theories/Order_Proofs3.v
theories/Order_Proofs4.v
theories/Order_Proofs5.v
theories/Order_Proofs6.v
theories/Order_Proofs7.v
theories/Order_Props.v
theories/Given_Spec.v
theories/Given_Proofs.v
theories/Given_Proofs2.v
theories/Given_Proofs3.v
theories/Given_Proofs4.v
theories/Given_Proofs5.v
theories/Given_Proofs6.v
theories/Given_Proofs7.v
theories/Given_Proofs8.v
theories/Given_Demo.v
theories/Given_Props.v
theories/Respell_Spec.v
theories/Respell_Proofs.v
theories/Respell_Proofs2.v
theories/Respell_Proofs3.v
theories/Respell_Proofs4.v
theories/Respell_Props.v
theories/Respell_Examples.v
theories/Short_Spec.v
theories/Short_Proofs.v
theories/Short_Proofs2.v
theories/Short_Props.v
theories/Short_Examples.v
