-Q theories Verif
theories/PyStr.v
theories/UniTables.v
theories/XPathAst.v
theories/XPathLex.v
theories/XPathGrammar.v
theories/LALR.v
theories/XPathSpec.v
theories/XPathParseProofs.v
theories/XPathParser.v
theories/XPathLexProofs.v
theories/XPathRender.v
theories/XPathCanon.v
theories/XPathRoundTrip.v
theories/XPathText.v
theories/W3CGrammar.v
theories/W3CProofs.v
theories/LexSpec.v
theories/XPathMisc.v
theories/W3CSound.v
theories/Props_XPath.v
theories/XmlTree.v
theories/XPathEval.v
theories/XSpace.v
theories/XPathRead.v
theories/Fields.v
theories/FieldSpec.v
theories/DocSpec.v
theories/FieldSem.v
theories/FieldUpd.v
theories/FieldBuild.v
theories/FieldConstruct.v
theories/FieldSet.v
theories/FieldSetGet.v
theories/FieldProps.v
theories/FieldTotal.v
theories/FieldDelete.v
theories/FieldPrune.v
theories/FieldUndo.v
theories/Mappers.v
theories/MapperProofs.v
theories/FieldRefuse.v
theories/Props_Fields.v
theories/Props_Mappers.v
theories/NodeList.v
theories/ListSpec.v
theories/ListProofs.v
theories/ListOps.v
theories/ListSim.v
theories/ListFacts.v
theories/Props_Lists.v
theories/NodeNodes.v
theories/NodeNodesProofs.v
theories/Props_NodeLists.v
theories/Classes.v
theories/ClassProofs.v
theories/Namespaces.v
theories/NamespaceProofs.v
theories/SchemaCache.v
theories/SchemaCacheProofs.v
theories/ObjEq.v
theories/Props_Classes.v
theories/Props_Namespaces.v
theories/Props_Schemas.v
theories/FieldLists.v
theories/FieldListProofs.v
theories/Props_FieldLists.v
theories/FormFields.v
theories/FormFieldProofs.v
theories/Props_FormFields.v
theories/FormData.v
theories/Props_FormData.v
theories/FormUpdate.v
theories/Props_FormUpdate.v
theories/FormInit.v
theories/Props_FormInit.v
theories/FormLists.v
theories/Props_FormLists.v
theories/FormSets.v
theories/Props_FormSets.v
theories/CatalogGen.v
theories/Props_Catalog.v
theories/Environ.v
theories/Props_Environ.v
theories/Cerp.v
theories/Props_Cerp.v
theories/Mods.v
theories/Props_Mods.v
theories/Vocab.v
theories/Props_Vocab.v
theories/Validate.v
theories/Props_Validate.v
theories/NodeAssign.v
theories/Props_NodeAssign.v
theories/IndepSpec.v
theories/FieldIndep.v
theories/Props_Indep.v
theories/Props_ListHistory.v
theories/UndoSpec.v
theories/FieldChain.v
theories/FieldUndoEq.v
theories/Props_Undo.v
theories/Props_Variable.v
theories/EnvAgree.v
theories/Shipped.v
theories/Props_Shipped.v
theories/FieldLocal.v
theories/FieldShare.v
theories/FieldOps.v
theories/ForkSpec.v
theories/Props_Share.v
theories/Construct.v
theories/Props_Construct.v
theories/FormValid.v
theories/Props_FormValid.v
theories/FormHtml.v
theories/Props_FormHtml.v
theories/FormClasses.v
theories/Props_FormClasses.v
theories/XmlText.v
theories/XmlTextProofs.v
theories/Props_XmlText.v
theories/LostSpec.v
theories/FieldLost.v
theories/Props_Lost.v
theories/XPathThreads.v
theories/Props_XPathThreads.v
theories/Display.v
theories/Props_Display.v
theories/MailDate.v
theories/Props_MailDate.v
theories/NumberSpec.v
theories/XPathLit.v
theories/XPathNum.v
theories/Props_Number.v
theories/Record.v
theories/RecordSpec.v
theories/FieldSingle.v
theories/FieldRecord.v
theories/Props_Record.v
theories/Object.v
theories/ObjectSpec.v
theories/Props_Object.v
theories/LeafSpec.v
theories/Props_Leaf.v
theories/Props_Keywords.v
theories/FormPages.v
theories/Props_FormPages.v
theories/ReadSpec.v
theories/ReadNum.v
theories/ReadDate.v
theories/Props_Exact.v
theories/EvalSpec.v
theories/EvalMeaning.v
theories/EvalOrder.v
theories/EvalMain.v
theories/EvalValues.v
theories/EvalFuns.v
theories/EvalAgree.v
theories/Props_Eval.v
theories/EvalBlind.v
theories/Props_Write.v
theories/Props_WriteList.v
theories/EvalRemove.v
theories/Props_RemoveList.v
theories/Props_AttrList.v
theories/Props_CreateAttr.v
theories/Props_CreateText.v
theories/Props_Grow.v
theories/Props_GrowBack.v
