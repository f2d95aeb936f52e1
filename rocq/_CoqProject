-Q theories Verif
theories/Text.v
theories/TextFacts.v
theories/Span_Model.v
theories/Span_Pure.v
theories/Span_Spec.v
theories/Span_Proof.v
theories/Span_Laws.v
theories/Span_Prop.v
theories/Maps.v
theories/Strings_Model.v
theories/Strings_Proof.v
theories/Strings_Prop.v
theories/Catalog_Model.v
theories/Catalog_Spec.v
theories/Catalog_Proof.v
theories/Catalog_Prop.v
theories/Parser_Model.v
theories/Parser_Spec.v
theories/Parser_Proof.v
theories/Parser_Prop.v
theories/Regex.v
theories/Regex_Proof.v
theories/Regex_Scan.v
theories/Regex_Lang.v
theories/Regex_Lazy.v
theories/Subs_Model.v
theories/Subs_Spec.v
theories/Subs_Proof.v
theories/Subs_Chars.v
theories/Subs_Prop.v
theories/Path_Model.v
theories/Path_Proof.v
theories/Path_Prop.v
theories/SourceMap_Model.v
theories/SourceMap_Proof.v
theories/SourceMap_Prop.v
theories/Attrlist_Model.v
theories/Attrlist_Proof.v
theories/Attrlist_Spec.v
theories/Attrlist_Laws.v
theories/Attrlist_Round.v
theories/Attrlist_Prop.v
theories/Entry_Model.v
theories/Pre_Model.v
theories/Entry_Spec.v
theories/Entry_Proof.v
theories/Entry_Prop.v
theories/Pre_Spec.v
theories/Pre_Proof.v
theories/Pre_Includes.v
theories/Pre_Prop.v
theories/SecId_Model.v
theories/SecId_Spec.v
theories/SecId_Proof.v
theories/SecId_Prop.v
theories/Render_Model.v
theories/Look_Model.v
theories/Quote_Model.v
theories/Macro_Model.v
theories/Group_Model.v
theories/Group_Spec.v
theories/Group_Proof.v
theories/Render_Proof.v
theories/Look_Proof.v
theories/Quote_Spec.v
theories/Quote_Proof.v
theories/Quote_Plain.v
theories/Quote_Prop.v
theories/Macro_Spec.v
theories/Macro_Proof.v
theories/Macro_Prop.v
theories/Group_Prop.v
theories/Header_Model.v
theories/Header_Spec.v
theories/Header_Proof.v
theories/Header_Prop.v
theories/Block_Model.v
theories/Doc_Model.v
theories/Block_Spec.v
theories/Block_Proof.v
theories/Block_Prop.v
theories/Tree_Spec.v
theories/Tree_Proof.v
theories/Tree_Prop.v
theories/Total_Spec.v
theories/Total_Proof.v
theories/Total_Header.v
theories/Total_Prop.v
theories/Safe_Spec.v
theories/Safe_Proof.v
theories/Safe_Class.v
theories/Safe_Prop.v
theories/Shape_Proof.v
theories/Walk_Spec.v
theories/Walk_Proof.v
theories/Walk_Prop.v
theories/Meta_Spec.v
theories/Meta_Proof.v
theories/Kind_Spec.v
theories/Kind_Proof.v
theories/Meta_Prop.v
theories/Outline_Spec.v
theories/Outline_Proof.v
theories/Outline_Prop.v
theories/Auto_Spec.v
theories/Auto_Proof.v
theories/Auto_Prop.v
theories/Inline_Spec.v
theories/Inline_Proof.v
theories/Inline_Prop.v
theories/Url_Proof.v
theories/Url_Prop.v
theories/Image_Spec.v
theories/Image_Proof.v
theories/Image_Prop.v
theories/BlockSubs_Spec.v
theories/BlockSubs_Proof.v
theories/BlockSubs_Prop.v
theories/Access_Model.v
theories/Access_Spec.v
theories/Access_Proof.v
theories/Access_Prop.v
theories/Warn_Spec.v
theories/Warn_Proof.v
theories/Warn_Prop.v
theories/Order_Spec.v
theories/Order_Prop.v
theories/Attrs_Spec.v
theories/Attrs_Proof.v
theories/Attrs_Prop.v
theories/Round_Spec.v
theories/Round_Proof.v
theories/Round_Total.v
theories/Round_Prop.v
theories/Notice_Spec.v
theories/Notice_Proof.v
theories/Notice_Prop.v
theories/Tags_Spec.v
theories/Tags_Proof.v
theories/Tags_Prop.v
theories/Author_Spec.v
theories/Author_Proof.v
theories/Author_Prop.v
theories/Pass_Spec.v
theories/Pass_Proof.v
theories/Pass_Prop.v
theories/Inert_Spec.v
theories/Inert_Proof.v
theories/Inert_Prop.v
theories/Spans_Spec.v
theories/Spans_Proof.v
theories/Spans_Prop.v
theories/Stuck_Spec.v
theories/Stuck_Proof.v
theories/Stuck_Prop.v
theories/Begin_Spec.v
theories/Begin_Proof.v
theories/Begin_Prop.v
theories/Fate_Spec.v
theories/Fate_Proof.v
theories/Fate_Prop.v
theories/Tidy_Spec.v
theories/Tidy_Proof.v
theories/Tidy_Prop.v
theories/Shift_Spec.v
theories/Shift_Proof.v
theories/Shift_Prop.v
theories/Fast_Spec.v
theories/Fast_Proof.v
theories/Fast_Prop.v
theories/Extend_Spec.v
theories/Extend_Proof.v
theories/Extend_Prop.v
theories/Crlf_Spec.v
theories/Crlf_Proof.v
theories/Crlf_Prop.v
theories/Seen_Spec.v
theories/Seen_Proof.v
theories/Seen_Prop.v
theories/Again_Spec.v
theories/Again_Proof.v
theories/Again_Prop.v
theories/Boxed_Spec.v
theories/Boxed_Proof.v
theories/Boxed_Prop.v
theories/Paste_Spec.v
theories/Paste_Proof.v
theories/Paste_Prop.v
theories/Wrap_Spec.v
theories/Wrap_Proof.v
theories/Wrap_Prop.v
theories/Chapter_Spec.v
theories/Chapter_Proof.v
theories/Chapter_Prop.v
theories/Show_Model.v
theories/Show_Spec.v
theories/Show_Proof.v
theories/Show_Prop.v
theories/Tell_Model.v
theories/Tell_Proof.v
theories/Tell_Prop.v
