-Q theories Verif
theories/Base.v
theories/Unicode.v
theories/Regex.v
theories/RegexProofs.v
theories/Patterns.v
theories/Common.v
theories/Converters.v
theories/NodeTypes.v
theories/Tree.v
theories/DocTree.v
theories/Spec.v
theories/History.v
theories/TreeProofs.v
theories/DocTreeProofs.v
theories/HyperrefProofs.v
theories/Properties2.v
theories/TextProofs.v
theories/RefnameProofs.v
theories/ConverterProofs.v
theories/EnumProofs.v
theories/Properties1.v
theories/Utf8Latex.v
theories/TexSpec.v
theories/Utf8Proofs.v
theories/Properties3.v
theories/Writer.v
theories/WriterSpec.v
theories/WriterProofs.v
theories/Properties4.v
theories/Transforms.v
theories/TransformSpec.v
theories/TransformProofs.v
theories/Properties5.v
theories/Blocks.v
theories/BlockSpec.v
theories/BlockProofs.v
theories/Properties6.v
theories/Prog.v
theories/ParseLoop.v
theories/LoopProofs.v
theories/Inline.v
theories/InlineSpec.v
theories/RegexGroups.v
theories/InlineProofs.v
theories/Properties7.v
theories/Body.v
theories/Directives.v
theories/Parser.v
theories/ParserProofs.v
theories/ConformanceBase.v
theories/ParserSpec.v
theories/Properties8.v
theories/NestProofs.v
theories/Properties9.v
theories/DirectiveSpec.v
theories/DirectiveProofs.v
theories/Properties10.v
theories/Hoare.v
theories/PointsSpec.v
theories/LocalProofs.v
theories/PointsProofs.v
theories/Properties11.v
theories/MarkupSpec.v
theories/MarkupProofs.v
theories/SpanProofs.v
theories/ChunkProofs.v
theories/Properties13.v
theories/SimpleSpec.v
theories/LineProofs.v
theories/OpenProofs.v
theories/RunProofs.v
theories/MarkerProofs.v
theories/StepProofs.v
theories/ParaProofs.v
theories/GreedyProofs.v
theories/NumberProofs.v
theories/LeaveProofs.v
theories/GroupProofs.v
theories/OpenerProofs.v
theories/EntryProofs.v
theories/LeafProofs.v
theories/FieldProofs.v
theories/ShiftProofs.v
theories/ExerciseSpec.v
theories/ExerciseProofs.v
theories/BoxProofs.v
theories/FigureProofs.v
theories/ChoiceProofs.v
theories/QuizProofs.v
theories/QuestionProofs.v
theories/QuizRunProofs.v
theories/TableProofs.v
theories/CiteProofs.v
theories/NestedProofs.v
theories/TermProofs.v
theories/NewcolProofs.v
theories/VerbatimProofs.v
theories/TargetProofs.v
theories/DocumentProofs.v
theories/Properties12.v
theories/Properties14.v
theories/Properties15.v
theories/Properties16.v
theories/Properties17.v
theories/Properties18.v
theories/Properties19.v
theories/Properties20.v
theories/Properties21.v
theories/Properties22.v
theories/Properties23.v
theories/Properties24.v
theories/Properties25.v
theories/BornProofs.v
theories/Properties26.v
theories/ListSpec.v
theories/ItemProofs.v
theories/Properties27.v
theories/ColumnSpec.v
theories/ColumnProofs.v
theories/Properties28.v
theories/Properties29.v
theories/AttributionSpec.v
theories/AttributionProofs.v
theories/Properties30.v
theories/Properties31.v
theories/Properties32.v
theories/Conformance.v
