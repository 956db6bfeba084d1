-Q theories Verif
theories/Base.v
theories/Tac.v
theories/DateTimeSpec.v
theories/DateTimeModel.v
theories/DateTimeProofs.v
theories/DateTimeProperties.v
theories/IntSpec.v
theories/IntModel.v
theories/IntProofs.v
theories/IntProperties.v
theories/IntExactProperties.v
theories/TimeSpanModel.v
theories/TimeSpanSpec.v
theories/TimeSpanProofs.v
theories/TimeSpanProperties.v
theories/Bytes.v
theories/IeeeModel.v
theories/BoxModel.v
theories/BoxProofs.v
theories/BoxProperties.v
theories/MemModel.v
theories/ArrayModel.v
theories/ArraySpec.v
theories/MemProofs.v
theories/ArrayProofs.v
theories/ArrayProperties.v
theories/BufferModel.v
theories/BufferSpec.v
theories/BufferProofs.v
theories/BufferProperties.v
theories/ArrayMoreProperties.v
theories/StringBuilderModel.v
theories/StringBuilderSpec.v
theories/StringBuilderProofs.v
theories/StringBuilderHistory.v
theories/StringBuilderProperties.v
theories/StringModel.v
theories/StringSpec.v
theories/StringProofs.v
theories/StringProperties.v
theories/StringTrimProperties.v
theories/StringBuildProofs.v
theories/StringBuildProperties.v
theories/TextModel.v
theories/TextSpec.v
theories/TextProofs.v
theories/TextProperties.v
theories/TextExtraProperties.v
theories/PlatformModel.v
theories/PlatformProperties.v
theories/MathModel.v
theories/MathProofs.v
theories/MathSpec.v
theories/FloatSpec.v
theories/FloatProofs.v
theories/MathProperties.v
theories/MathRoundProperties.v
theories/FloatModel.v
theories/FloatProperties.v
theories/FloatSpanProperties.v
theories/FloatTotalProperties.v
theories/FloatDateProperties.v
theories/FloatRoundProperties.v
theories/BoxCompareModel.v
theories/BoxCompareProperties.v
theories/FormatterModel.v
theories/FormatterSpec.v
theories/FormatterProofs.v
theories/FormatterProperties.v
theories/TranslatorModel.v
theories/TranslatorSpec.v
theories/TranslatorProperties.v
theories/StatementModel.v
theories/StatementProperties.v
theories/ExprModel.v
theories/ExprSpec.v
theories/ExprProofs.v
theories/ExprProperties.v
theories/ExprValueSpec.v
theories/ExprValueProofs.v
theories/ExprValueProperties.v
theories/ControlModel.v
theories/ControlSpec.v
theories/ControlProofs.v
theories/ControlProperties.v
theories/LocalsModel.v
theories/LocalsSpec.v
theories/LocalsProperties.v
theories/FloatTextModel.v
theories/FloatTextSpec.v
theories/FloatTextProofs.v
theories/FloatTextProperties.v
theories/MemberModel.v
theories/MemberSpec.v
theories/MemberProperties.v
theories/MemberBodyModel.v
theories/MemberBodyProperties.v
theories/ConstantModel.v
theories/ConstantSpec.v
theories/ConstantProofs.v
theories/ConstantProperties.v
theories/InitializerModel.v
theories/InitializerSpec.v
theories/InitializerProperties.v
theories/OrderModel.v
theories/OrderSpec.v
theories/OrderProofs.v
theories/OrderProperties.v
theories/ArgumentModel.v
theories/ArgumentSpec.v
theories/ArgumentProperties.v
theories/ConcatModel.v
theories/ConcatSpec.v
theories/ConcatProperties.v
theories/RunModel.v
theories/RunSpec.v
theories/RunProperties.v
theories/HeaderModel.v
theories/HeaderSpec.v
theories/HeaderProperties.v
theories/EnumModel.v
theories/EnumSpec.v
theories/EnumProperties.v
theories/FieldInitModel.v
theories/FieldInitSpec.v
theories/FieldInitProperties.v
theories/TryModel.v
theories/TrySpec.v
theories/TryProperties.v
theories/DateTextModel.v
theories/DateTextSpec.v
theories/DateTextProperties.v
theories/CastModel.v
theories/CastSpec.v
theories/CastProperties.v
theories/DropModel.v
theories/DropSpec.v
theories/DropProofs.v
theories/DropProperties.v
theories/FloatNarrowProofs.v
theories/FloatExprModel.v
theories/FloatExprSpec.v
theories/FloatExprProofs.v
theories/FloatExprProperties.v
theories/LexModel.v
theories/LexSpec.v
theories/LexProofs.v
theories/LexProperties.v
theories/BodyTextModel.v
theories/BodyTextSpec.v
theories/BodyTextProofs.v
theories/BodyWriteProofs.v
theories/BodyExprProofs.v
theories/BodyTextProperties.v
theories/HeaderTextModel.v
theories/HeaderTextSpec.v
theories/HeaderTextProofs.v
theories/HeaderReadProofs.v
theories/HeaderMemberProofs.v
theories/HeaderClassProofs.v
theories/HeaderFileProofs.v
theories/HeaderTextProperties.v
theories/SourceTextModel.v
theories/SourceTextSpec.v
theories/SourceWriteProofs.v
theories/SourceReadProofs.v
theories/SourceFileProofs.v
theories/SourceTextProperties.v
theories/ProtoTextModel.v
theories/ProtoTextSpec.v
theories/ProtoTextProofs.v
theories/ProtoTextProperties.v
theories/LinkProperties.v
theories/ParamNamesProperties.v
