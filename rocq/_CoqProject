-Q theories Verif
theories/DomModel.v
theories/DomSpec.v
theories/DomProofs.v
theories/DomProofs2.v
theories/DomProofs3.v
theories/DomProofs4.v
theories/DomProofs5.v
theories/DomProps.v
theories/ArenaModel.v
theories/ArenaSpec.v
theories/ArenaProofs.v
theories/ArenaProps.v
theories/VisitModel.v
theories/VisitSpec.v
theories/VisitProofs.v
theories/VisitProps.v
theories/Chars.v
theories/XmlModel.v
theories/XmlSpec.v
theories/XmlProofs.v
theories/XmlProofs2.v
theories/XmlProofs3.v
theories/XmlProofs4.v
theories/XmlProofs5.v
theories/XmlProps.v
theories/NameModel.v
theories/AttrTable.v
theories/AttrModel.v
theories/AttrSpec.v
theories/AttrProofs.v
theories/AttrProofs2.v
theories/AttrProps.v
theories/IdsModel.v
theories/IdsSpec.v
theories/IdsProofs.v
theories/IdsProofs2.v
theories/IdsProofs3.v
theories/IdsProofs4.v
theories/IdsProps.v
theories/ParseModel.v
theories/ParseSpec.v
theories/ParseProofs.v
theories/ParseProofs2.v
theories/ParseProofs3.v
theories/ParseProofs4.v
theories/ParseProps.v
theories/PathModel.v
theories/PathSpec.v
theories/PathProofs.v
theories/PathProofs2.v
theories/PathProofs3.v
theories/PathProofs4.v
theories/PathProofs5.v
theories/PathProps.v
theories/TextModel.v
theories/TextSpec.v
theories/TextProofs.v
theories/TextProps.v
theories/ListModel.v
theories/ListSpec.v
theories/ListProofs.v
theories/ListProps.v
theories/ClockModel.v
theories/ClockSpec.v
theories/ClockProofs.v
theories/ClockProps.v
theories/JobsModel.v
theories/JobsSpec.v
theories/JobsProofs.v
theories/JobsProps.v
theories/TransformModel.v
theories/TransformSpec.v
theories/TransformProofs.v
theories/TransformProofs2.v
theories/TransformProps.v
theories/TransformTextModel.v
theories/TransformTextSpec.v
theories/TransformTextProofs.v
theories/TransformTextProps.v
theories/ValueProofs.v
theories/ValueProps.v
theories/SegmentModel.v
theories/SegmentSpec.v
theories/SegmentProofs.v
theories/SegmentProofs2.v
theories/SegmentProofs3.v
theories/SegmentProofs4.v
theories/SegmentProps.v
theories/NsModel.v
theories/NsSpec.v
theories/NsProofs.v
theories/NsProps.v
theories/LintModel.v
theories/LintSpec.v
theories/LintProofs.v
theories/LintProofs2.v
theories/LintProps.v
theories/NsJobsModel.v
theories/NsJobsSpec.v
theories/NsJobsProofs.v
theories/NsJobsProofs2.v
theories/NsJobsProps.v
theories/GroupModel.v
theories/GroupSpec.v
theories/GroupProofs.v
theories/GroupProofs2.v
theories/GroupProofs3.v
theories/GroupProofs4.v
theories/GroupProps.v
theories/ActionModel.v
theories/ActionSpec.v
theories/ActionProofs.v
theories/ActionProps.v
theories/SelectModel.v
theories/SelectSpec.v
theories/SelectProofs.v
theories/SelectProps.v
theories/InfoModel.v
theories/InfoProofs.v
theories/InfoProps.v
theories/ElemTable.v
theories/ElemModel.v
theories/ElemSpec.v
theories/ElemProofs.v
theories/ElemProps.v
theories/WalkModel.v
theories/WalkSpec.v
theories/WalkProofs.v
theories/WalkOps.v
theories/WalkOps2.v
theories/WalkOps3.v
theories/WalkDoc.v
theories/NodeModel.v
theories/ScriptsModel.v
theories/ScriptsSpec.v
theories/ScriptsProofs.v
theories/ScriptsProps.v
theories/DefsModel.v
theories/DefsSpec.v
theories/DefsProofs.v
theories/DefsProofs2.v
theories/DefsProps.v
theories/PolicyModel.v
theories/PolicySpec.v
theories/PolicyProofs.v
theories/PolicyProps.v
theories/ViewModel.v
theories/ViewSpec.v
theories/ViewProofs.v
theories/ViewProps.v
theories/ShapeModel.v
theories/ShapeSpec.v
theories/ShapeProofs.v
theories/ShapeProps.v
theories/DrawSpec.v
theories/DrawProofs.v
theories/DrawProps.v
theories/MergeModel.v
theories/MergeSpec.v
theories/MergeProofs.v
theories/MergeProps.v
theories/CascadeModel.v
theories/CascadeSpec.v
theories/CascadeProofs.v
theories/CascadeProps.v
theories/HiddenModel.v
theories/HiddenSpec.v
theories/HiddenProofs.v
theories/HiddenProofs2.v
theories/HiddenProps.v
theories/KnownTable.v
theories/KnownModel.v
theories/KnownSpec.v
theories/KnownProofs.v
theories/KnownProps.v
theories/DefaultsModel.v
theories/DefaultsSpec.v
theories/DefaultsProofs.v
theories/DefaultsProps.v
theories/UsageModel.v
theories/UsageSpec.v
theories/UsageProofs.v
theories/UsageProps.v
theories/JoinModel.v
theories/JoinSpec.v
theories/JoinProofs.v
theories/JoinProps.v
theories/PaintModel.v
theories/PaintSpec.v
theories/PaintProofs.v
theories/PaintProps.v
theories/ApplyModel.v
theories/ApplySpec.v
theories/ApplyProofs.v
theories/ApplyProps.v
theories/EllipseModel.v
theories/EllipseSpec.v
theories/EllipseProofs.v
theories/EllipseProps.v
theories/StrokedModel.v
theories/StrokedSpec.v
theories/StrokedProofs.v
theories/StrokedProps.v
theories/InlineModel.v
theories/InlineSpec.v
theories/InlineProofs.v
theories/InlineProps.v
theories/CircleModel.v
theories/CircleSpec.v
theories/CircleProofs.v
theories/CircleProps.v
theories/DeprecatedModel.v
theories/DeprecatedSpec.v
theories/DeprecatedProofs.v
theories/DeprecatedProps.v
theories/OneStopModel.v
theories/OneStopSpec.v
theories/OneStopProofs.v
theories/OneStopProps.v
theories/ValuesModel.v
theories/ValuesSpec.v
theories/ValuesProofs.v
theories/ValuesProps.v
theories/GroupAttrsModel.v
theories/GroupAttrsSpec.v
theories/GroupAttrsProofs.v
theories/GroupAttrsProps.v
theories/BlankModel.v
theories/BlankSpec.v
theories/BlankProofs.v
theories/BlankProps.v
theories/StripModel.v
theories/StripSpec.v
theories/StripProofs.v
theories/StripProps.v
theories/EmptyTextModel.v
theories/EmptyTextSpec.v
theories/EmptyTextProofs.v
theories/EmptyTextProps.v
theories/GjkModel.v
theories/GjkSpec.v
theories/GjkProofs.v
theories/GjkProofs2.v
theories/GjkProofs3.v
theories/GjkProofs4.v
theories/GjkProps.v
theories/OffCanvasModel.v
theories/OffCanvasSpec.v
theories/OffCanvasProofs.v
theories/OffCanvasProps.v
theories/ToAttrsModel.v
theories/ToAttrsSpec.v
theories/ToAttrsProofs.v
theories/ToAttrsProps.v
theories/SortModel.v
theories/SortSpec.v
theories/SortProofs.v
theories/SortProps.v
theories/RemoveAttrsModel.v
theories/RemoveAttrsSpec.v
theories/RemoveAttrsProofs.v
theories/RemoveAttrsProps.v
theories/ReuseModel.v
theories/ReuseSpec.v
theories/ReuseProofs.v
theories/ReuseProofs2.v
theories/ReuseProofs3.v
theories/ReuseProofs4.v
theories/ReuseProps.v
theories/OptionsModel.v
theories/OptionsSpec.v
theories/OptionsProofs.v
theories/OptionsProps.v
theories/SimplifyModel.v
theories/SimplifySpec.v
theories/SimplifyProofs.v
theories/SimplifyProofs2.v
theories/SimplifyProofs3.v
theories/SimplifyProofs4.v
theories/SimplifyProofs5.v
theories/SimplifyProps.v
theories/CleanModel.v
theories/CleanSpec.v
theories/CleanProofs.v
theories/CleanProps.v
theories/ScriptModel.v
theories/ScriptSpec.v
theories/ScriptProofs.v
theories/ScriptProofs2.v
theories/ScriptProofs3.v
theories/ScriptProps.v
theories/PruneModel.v
theories/PruneSpec.v
theories/PruneProofs.v
theories/PruneProofs2.v
theories/PruneProofs3.v
theories/PruneProofs4.v
theories/PruneProps.v
theories/JsxNamesModel.v
theories/JsxNamesSpec.v
theories/JsxNamesProofs.v
theories/JsxNamesProofs2.v
theories/JsxNamesProps.v
theories/JsxModel.v
theories/JsxSpec.v
theories/JsxProofs.v
theories/JsxProps.v
theories/PresetModel.v
theories/PresetSpec.v
theories/PresetProofs.v
theories/PresetProofs2.v
theories/PresetProofs3.v
theories/PresetProofs4.v
theories/PresetProps.v
theories/ModuleModel.v
theories/ModuleSpec.v
theories/ModuleProofs.v
theories/ModuleProofs2.v
theories/ModuleProofs3.v
theories/ModuleProps.v
theories/MatcherModel.v
theories/MatcherSpec.v
theories/MatcherProofs.v
theories/MatcherProofs2.v
theories/MatcherProofs3.v
theories/MatcherProofs4.v
theories/MatcherProofs5.v
theories/MatcherProofs6.v
theories/MatcherProps.v
theories/BareModel.v
theories/BareSpec.v
theories/BareProofs.v
theories/BareProofs2.v
theories/BareProps.v
theories/RootModel.v
theories/RootSpec.v
theories/RootProofs.v
theories/RootProofs2.v
theories/RootProps.v
theories/BackingModel.v
theories/BackingSpec.v
theories/BackingProofs.v
theories/BackingProps.v
theories/TintModel.v
theories/TintSpec.v
theories/TintProofs.v
theories/TintProps.v
theories/SinkModel.v
theories/SinkSpec.v
theories/SinkProofs.v
theories/SinkProofs2.v
theories/SinkProofs3.v
theories/SinkProofs4.v
theories/SinkProps.v
theories/ExcerptModel.v
theories/ExcerptSpec.v
theories/ExcerptProofs.v
theories/ExcerptProps.v
theories/VerdictModel.v
theories/VerdictSpec.v
theories/VerdictProofs.v
theories/VerdictProps.v
theories/OnsetModel.v
theories/OnsetSpec.v
theories/OnsetProofs.v
theories/OnsetProofs2.v
theories/OnsetProps.v
theories/KeywordTable.v
theories/KeywordModel.v
theories/KeywordSpec.v
theories/KeywordProofs.v
theories/KeywordProofs2.v
theories/KeywordProofs3.v
theories/KeywordProps.v
theories/ShellModel.v
theories/ShellSpec.v
theories/ShellProofs.v
theories/ShellProofs2.v
theories/ShellProofs3.v
theories/ShellProps.v
theories/CommandModel.v
theories/CommandSpec.v
theories/CommandProofs.v
theories/CommandProps.v
theories/ExportModel.v
theories/ExportSpec.v
theories/ExportProofs.v
theories/ExportProofs2.v
theories/ExportProps.v
theories/BezierModel.v
theories/BezierSpec.v
theories/BezierProofs.v
theories/BezierProofs2.v
theories/BezierProps.v
theories/OverlayModel.v
theories/OverlaySpec.v
theories/OverlayProofs.v
theories/OverlayProofs2.v
theories/OverlayProofs3.v
theories/OverlayProofs4.v
theories/OverlayProps.v
theories/ServerModel.v
theories/ServerSpec.v
theories/ServerProofs.v
theories/ServerProps.v
theories/ScreenModel.v
theories/ScreenSpec.v
theories/ScreenProofs.v
theories/ScreenProps.v
theories/ArcModel.v
theories/ArcSpec.v
theories/ArcProofs.v
theories/ArcProofs2.v
theories/ArcProofs3.v
theories/ArcProofs4.v
theories/ArcProps.v
theories/EnactModel.v
theories/EnactSpec.v
theories/EnactProofs.v
theories/EnactProofs2.v
theories/EnactProofs3.v
theories/EnactProps.v
theories/ConfigModel.v
theories/ConfigSpec.v
theories/ConfigProofs.v
theories/ConfigProps.v
theories/TemplateModel.v
theories/TemplateSpec.v
theories/TemplateProofs.v
theories/TemplateProps.v
theories/SagittaModel.v
theories/SagittaSpec.v
theories/SagittaProofs.v
theories/SagittaProofs2.v
theories/SagittaProofs3.v
theories/SagittaProps.v
theories/WeldModel.v
theories/WeldSpec.v
theories/WeldProofs.v
theories/WeldProofs2.v
theories/WeldProps.v
theories/FeatureModel.v
theories/FeatureSpec.v
theories/FeatureProofs.v
theories/FeatureProofs2.v
theories/FeatureProofs3.v
theories/FeatureProofs4.v
theories/FeatureProps.v
theories/ClipModel.v
theories/ClipSpec.v
theories/ClipProofs.v
theories/ClipProps.v
theories/OrderModel.v
theories/OrderSpec.v
theories/OrderProofs.v
theories/OrderProps.v
theories/TallyModel.v
theories/TallySpec.v
theories/TallyProofs.v
theories/TallyProps.v
theories/RecastModel.v
theories/RecastSpec.v
theories/RecastProofs.v
theories/RecastProps.v
