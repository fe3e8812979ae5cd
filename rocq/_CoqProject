-Q theories Verif
theories/Prelude.v
theories/ListModel.v
theories/ListSpec.v
theories/ListExec.v
theories/ListProofs.v
theories/ListProofs2.v
theories/ListProps.v
theories/Arr.v
theories/StackModel.v
theories/StackSpec.v
theories/StackExec.v
theories/StackProofs.v
theories/StackProps.v
theories/HashModel.v
theories/HashSpec.v
theories/HashExec.v
theories/HashProofs.v
theories/HashProofs2.v
theories/HashStrProofs.v
theories/HashProps.v
theories/FactoryModel.v
theories/FactorySpec.v
theories/FactoryExec.v
theories/FactoryProofs.v
theories/FactoryProps.v
theories/StrModel.v
theories/StrSpec.v
theories/StrProofs.v
theories/StrProofs2.v
theories/StrProofs3.v
theories/StrProps.v
theories/EscModel.v
theories/EscSpec.v
theories/EscExec.v
theories/EscProofs.v
theories/EscProofs2.v
theories/EscProps.v
theories/AttrModel.v
theories/AttrSpec.v
theories/AttrExec.v
theories/AttrProofs.v
theories/AttrProps.v
theories/TreeModel.v
theories/StreamModel.v
theories/ParseModel.v
theories/DumpModel.v
theories/StreamProofs.v
theories/ParseProofs.v
theories/ParseProofs2.v
theories/XmlSpec.v
theories/DumpProofs.v
theories/GramProofs.v
theories/GramProofs2.v
theories/GramProofs3.v
theories/GramProofs4.v
theories/GramProofs5.v
theories/ParseProps.v
theories/SoundSpec.v
theories/SoundProofs.v
theories/SoundProofs2.v
theories/SoundProps.v
theories/ItemModel.v
theories/ItemSpec.v
theories/ItemExec.v
theories/ItemProofs.v
theories/ItemProofs2.v
theories/ItemProofs3.v
theories/ItemProofs4.v
theories/ItemProofs5.v
theories/ItemProofs6.v
theories/ItemProofs7.v
theories/ItemCases.v
theories/ItemProps.v
theories/BabelTables.v
theories/BabelPoints.v
theories/BabelModel.v
theories/BabelSpec.v
theories/BabelExec.v
theories/BabelProofs.v
theories/BabelProofs2.v
theories/BabelProofs3.v
theories/BabelCases.v
theories/BabelProps.v
theories/FindModel.v
theories/FindSpec.v
theories/FindProofs.v
theories/FindProofs2.v
theories/FindProofs3.v
theories/FindProofs4.v
theories/FindCases.v
theories/FindProps.v
theories/DtdModel.v
theories/DtdSpec.v
theories/DtdProofs.v
theories/DtdProofs2.v
theories/DtdProofs3.v
theories/DtdDocModel.v
theories/DtdDocSpec.v
theories/DtdDocProofs.v
theories/DtdDocProofs2.v
theories/DtdDocProofs3.v
theories/DtdDocProofs4.v
theories/DtdCases.v
theories/DtdProps.v
theories/EqModel.v
theories/EqSpec.v
theories/EqProofs.v
theories/EqProofs2.v
theories/EqProofs3.v
theories/EqProofs4.v
theories/EqProps.v
theories/NoteModel.v
theories/NoteSpec.v
theories/NoteExec.v
theories/NoteProofs.v
theories/NoteProps.v
theories/NsModel.v
theories/NsExec.v
theories/NsSpec.v
theories/NsProofs.v
theories/NsProofs2.v
theories/NsCases.v
theories/NsProps.v
theories/FileSpec.v
theories/FileProofs.v
theories/FileProofs2.v
theories/FileProofs3.v
theories/FileProofs4.v
theories/FileCases.v
theories/FileCases2.v
theories/FileProps.v
theories/LoadModel.v
theories/LoadSpec.v
theories/LoadProofs.v
theories/LoadProofs2.v
theories/LoadProofs3.v
theories/LoadProofs4.v
theories/LoadProofs5.v
theories/LoadProofs6.v
theories/LoadProofs7.v
theories/LoadProofs8.v
theories/LoadProofs9.v
theories/LoadProofs10.v
theories/LoadCases.v
theories/LoadProps.v
theories/RefSpec.v
theories/RefProofs.v
theories/RefProofs2.v
theories/RefCases.v
theories/RefProps.v
theories/FreeModel.v
theories/FreeSpec.v
theories/FreeExec.v
theories/FreeProofs.v
theories/FreeProofs2.v
theories/FreeProofs3.v
theories/FreeProofs4.v
theories/FreeProofs5.v
theories/FreeCases.v
theories/FreeProps.v
theories/DtdEqModel.v
theories/DtdEqSpec.v
theories/DtdEqProofs.v
theories/DtdEqCases.v
theories/DtdEqProps.v
theories/PiModel.v
theories/PiSpec.v
theories/PiProofs.v
theories/PiProps.v
theories/ValidModel.v
theories/ValidSpec.v
theories/ValidProofs.v
theories/ValidProofs2.v
theories/ValidCases.v
theories/ValidProps.v
theories/LinkModel.v
theories/LinkSpec.v
theories/LinkExec.v
theories/LinkProofs.v
theories/LinkProofs2.v
theories/LinkProofs3.v
theories/LinkProps.v
theories/CutSpec.v
theories/CutProofs.v
theories/CutProofs2.v
theories/CutProofs3.v
theories/CutCases.v
theories/CutProps.v
theories/BdocModel.v
theories/BdocSpec.v
theories/BdocProofs.v
theories/BdocProofs2.v
theories/BdocProofs3.v
theories/BdocProofs4.v
theories/BdocProofs5.v
theories/BdocCases.v
theories/BdocProps.v
theories/OwnModel.v
theories/OwnExec.v
theories/OwnSpec.v
theories/OwnCases.v
theories/OwnProofs.v
theories/OwnProofs2.v
theories/OwnProofs3.v
theories/OwnProofs4.v
theories/OwnProofs5.v
theories/OwnProofs6.v
theories/OwnProofs7.v
theories/OwnProps.v
theories/RepModel.v
theories/RepSpec.v
theories/RepProofs.v
theories/RepProofs2.v
theories/RepProofs3.v
theories/RepProofs4.v
theories/RepProofs5.v
theories/RepProofs6.v
theories/RepCases.v
theories/FrepSpec.v
theories/FwinProofs.v
theories/FrepProofs.v
theories/FrepProofs2.v
theories/FrepProofs3.v
theories/RepProps.v
theories/DrepModel.v
theories/DrepSpec.v
theories/DnearProofs.v
theories/DrepProofs.v
theories/DrepProofs2.v
theories/DrepProofs3.v
theories/DrepProofs4.v
theories/DrepProofs5.v
theories/DrepCases.v
theories/DrepProps.v
theories/VerrModel.v
theories/VerrSpec.v
theories/VerrProofs.v
theories/VerrProofs2.v
theories/VerrProofs3.v
theories/VerrCases.v
theories/VerrProps.v
theories/SaveModel.v
theories/SaveSpec.v
theories/SaveProofs.v
theories/SaveProofs2.v
theories/SaveCases.v
theories/SaveProps.v
theories/BfileSpec.v
theories/BfileProofs.v
theories/BfileProofs2.v
theories/BfileProofs3.v
theories/BfileCases.v
theories/BfileProps.v
theories/KeepModel.v
theories/KeepSpec.v
theories/KeepProofs.v
theories/KeepProofs2.v
theories/KeepProofs3.v
theories/KeepCases.v
theories/NparseModel.v
theories/NparseProofs.v
theories/KeepProps.v
theories/PyModel.v
theories/PySpec.v
theories/PyProofs.v
theories/PyProofs2.v
theories/PyProofs3.v
theories/PyProofs4.v
theories/PyProofs5.v
theories/PyProofs6.v
theories/PyProofs7.v
theories/PyCases.v
theories/PyProps.v
theories/NserrModel.v
theories/NserrSpec.v
theories/NserrProofs.v
theories/NserrCases.v
theories/NserrProps.v
theories/NsmemModel.v
theories/NsmemSpec.v
theories/NsmemProofs.v
theories/NsmemProofs2.v
theories/NsmemProofs3.v
theories/NsmemProofs4.v
theories/NsmemCases.v
theories/NsmemProps.v
theories/KnifeModel.v
theories/KnifeSpec.v
theories/KnifeProofs.v
theories/KnifeProofs2.v
theories/KnifeProofs3.v
theories/KnifeProofs4.v
theories/KnifeCases.v
theories/KnifeProps.v
theories/HtmlModel.v
theories/HtmlSpec.v
theories/HtmlProofs.v
theories/HtmlProofs2.v
theories/HtmlProofs3.v
theories/HtmlCases.v
theories/HtmlProps.v
theories/FsafeProofs.v
theories/FsafeProofs2.v
theories/FsafeProofs3.v
theories/FsafeProofs4.v
theories/FsafeCases.v
theories/FsafeProps.v
theories/AskModel.v
theories/AskSpec.v
theories/AskProofs.v
theories/AskProps.v
theories/FmtModel.v
theories/FmtSpec.v
theories/FmtProofs.v
theories/FmtCases.v
theories/FmtProps.v
theories/FdtdProofs.v
theories/FdtdProofs2.v
theories/FdtdProofs3.v
theories/FdtdProofs4.v
theories/FdtdCases.v
theories/FdtdProps.v
theories/ExargModel.v
theories/ExargSpec.v
theories/ExargExec.v
theories/ExargProofs.v
theories/ExargProofs2.v
theories/KtoolSpec.v
theories/KtoolProofs.v
theories/ExargCases.v
theories/ExargProps.v
theories/KtoolProps.v
