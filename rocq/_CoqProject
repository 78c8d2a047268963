-Q theories Verif
theories/Base.v
theories/AttrsModel.v
theories/AttrsSpec.v
theories/AttrsProofs.v
theories/AttrsProps.v
theories/Base64Model.v
theories/Base64Spec.v
theories/Base64Proofs.v
theories/Base64Props.v
theories/SubsModel.v
theories/SubsSpec.v
theories/SubsProofs.v
theories/SubsProps.v
theories/DeqModel.v
theories/DeqSpec.v
theories/DeqProofs.v
theories/DeqProps.v
theories/Utf8.v
theories/Unicode.v
theories/Text.v
theories/PathModel.v
theories/PathSpec.v
theories/PathProofs.v
theories/PathProps.v
theories/IncludeModel.v
theories/IncludeSpec.v
theories/IncludeProofs.v
theories/IncludeProps.v
theories/LexerModel.v
theories/LexerSpec.v
theories/LexerProofs.v
theories/LexerMoreProofs.v
theories/LexerProps.v
theories/RootModel.v
theories/RootSpec.v
theories/RootProofs.v
theories/RootStepProofs.v
theories/RootPullProofs.v
theories/RootHistProofs.v
theories/RootProps.v
theories/LocModel.v
theories/LocSpec.v
theories/LocProofs.v
theories/LocProps.v
theories/LinesModel.v
theories/LinesSpec.v
theories/LinesProofs.v
theories/LinesProps.v
theories/NormModel.v
theories/NormSpec.v
theories/NormProofs.v
theories/NormProps.v
theories/IndentModel.v
theories/IndentSpec.v
theories/IndentProofs.v
theories/IndentProps.v
theories/TagsModel.v
theories/TagsSpec.v
theories/TagsProofs.v
theories/TagsProps.v
theories/IfdefModel.v
theories/IfdefSpec.v
theories/IfdefProofs.v
theories/IfdefProps.v
theories/AttrRefsModel.v
theories/AttrRefsSpec.v
theories/AttrRefsProofs.v
theories/AttrRefsProps.v
theories/IfevalModel.v
theories/IfevalSpec.v
theories/IfevalProofs.v
theories/IfevalProps.v
theories/SectionIdModel.v
theories/SectionIdSpec.v
theories/SectionIdProofs.v
theories/SectionIdProps.v
theories/SectionsModel.v
theories/SectionsSpec.v
theories/SectionsProofs.v
theories/SectionsProps.v
theories/TocModel.v
theories/TocSpec.v
theories/TocProofs.v
theories/TocProps.v
theories/SectNumModel.v
theories/SectNumSpec.v
theories/SectNumProofs.v
theories/SectNumProps.v
theories/HeadingLevelModel.v
theories/HeadingLevelSpec.v
theories/HeadingLevelProps.v
theories/EscapeModel.v
theories/EscapeSpec.v
theories/EscapeProofs.v
theories/EscapeProps.v
theories/OpenTagModel.v
theories/OpenTagSpec.v
theories/OpenTagProofs.v
theories/OpenTagProps.v
theories/ListStackModel.v
theories/ListStackSpec.v
theories/ListStackProofs.v
theories/ListStackProps.v
theories/CalloutsModel.v
theories/CalloutsSpec.v
theories/CalloutsProofs.v
theories/CalloutsProps.v
theories/ColsModel.v
theories/ColsSpec.v
theories/ColsProofs.v
theories/ColsProps.v
theories/CliArgsModel.v
theories/CliArgsSpec.v
theories/CliArgsProofs.v
theories/CliArgsProps.v
theories/FootnotesModel.v
theories/FootnotesSpec.v
theories/FootnotesProofs.v
theories/FootnotesProps.v
theories/DocinfoModel.v
theories/DocinfoSpec.v
theories/DocinfoProofs.v
theories/DocinfoProps.v
theories/CollectTextModel.v
theories/CollectTextSpec.v
theories/CollectTextProofs.v
theories/CollectTextProps.v
theories/AuthorLineModel.v
theories/AuthorLineSpec.v
theories/AuthorLineProofs.v
theories/AuthorLineProps.v
theories/LineModel.v
theories/AttrListModel.v
theories/AttrListSpec.v
theories/AttrListProofs.v
theories/AttrListProps.v
theories/TableModel.v
theories/PsvSpec.v
theories/PsvProofs.v
theories/PsvProps.v
theories/PsvRowProofs.v
theories/PsvTableProofs.v
theories/PsvEndProofs.v
theories/PsvStreamProofs.v
theories/ValueSpec.v
theories/ValueProofs.v
theories/ValueEndProofs.v
theories/CsvProps.v
theories/DsvProofs.v
theories/DsvProps.v
theories/EvalModel.v
theories/EvalSpec.v
theories/EvalProofs.v
theories/EvalBlockProofs.v
theories/EvalFrameProofs.v
theories/EvalTermProofs.v
theories/EvalProps.v
theories/InlineModel.v
theories/InlineSpec.v
theories/VerbatimSpec.v
theories/VerbatimProofs.v
theories/VerbatimProps.v
theories/PassthruSpec.v
theories/PassthruProofs.v
theories/PassthruProps.v
theories/InlineTermSpec.v
theories/InlineTermProofs.v
theories/InlineTermProps.v
theories/InlineLexedProofs.v
theories/InlineLettersSpec.v
theories/InlineLettersProofs.v
theories/InlineLettersProps.v
theories/HtmlModel.v
theories/HtmlSpec.v
theories/HtmlScanProofs.v
theories/HtmlTagProofs.v
theories/HtmlCallProofs.v
theories/HtmlPartProofs.v
theories/HtmlProofs.v
theories/HtmlProps.v
theories/BlockModel.v
theories/BlockSpec.v
theories/BlockTermProofs.v
theories/BlockMonoProofs.v
theories/BlockReadProofs.v
theories/BlockProps.v
theories/BlockTreeProofs.v
theories/BlockTreeProps.v
theories/BlockSkipProofs.v
theories/BlockSkipProps.v
theories/BlockLinesProps.v
theories/AttrDefModel.v
theories/AttrDefSpec.v
theories/AttrDefProofs.v
theories/AttrDefProps.v
theories/RevLineModel.v
theories/RevLineSpec.v
theories/RevLineProofs.v
theories/RevLineProps.v
theories/HeaderModel.v
theories/HeaderSpec.v
theories/HeaderProofs.v
theories/HeaderProps.v
theories/Html5sModel.v
theories/Html5sSpec.v
theories/Html5sCallProofs.v
theories/Html5sPartProofs.v
theories/Html5sDocProofs.v
theories/Html5sProofs.v
theories/Html5sProps.v
theories/XrefModel.v
theories/XrefSpec.v
theories/XrefProofs.v
theories/XrefProps.v
theories/ShownSpec.v
theories/ShownCallProofs.v
theories/ShownProofs.v
theories/ShownProps.v
theories/WholeModel.v
theories/WholeSpec.v
theories/WholeLexProofs.v
theories/WholePieceProofs.v
theories/WholeInlineProofs.v
theories/WholeBlockProofs.v
theories/WholeHtmlProofs.v
theories/WholeProps.v
theories/TimeModel.v
theories/TimeSpec.v
theories/TimeProofs.v
theories/TimeProps.v
theories/JsonModel.v
theories/JsonSpec.v
theories/JsonProofs.v
theories/JsonProps.v
theories/ArticleModel.v
theories/ArticleSpec.v
theories/ArticleLexProofs.v
theories/ArticleBlockProofs.v
theories/ArticleDocProofs.v
theories/ArticleIdProofs.v
theories/ArticleHtmlProofs.v
theories/ArticleProps.v
theories/OutlineSpec.v
theories/OutlineModel.v
theories/BoxSpec.v
theories/OutlineLexProofs.v
theories/OutlineBlockProofs.v
theories/OutlineListProofs.v
theories/BoxInlineProofs.v
theories/ListingInlineProofs.v
theories/OutlineDocProofs.v
theories/OutlineHtmlProofs.v
theories/OutlineProps.v
theories/ListingBlockProofs.v
theories/BoxDocProofs.v
theories/BoxHtmlProofs.v
theories/BoxProps.v
theories/ListingProofs.v
theories/ListingProps.v
theories/ManualModel.v
theories/ManualSpec.v
theories/ManualDocProofs.v
theories/ManualHtmlProofs.v
theories/ManualProps.v
theories/QuietProps.v
theories/SaidSpec.v
theories/SaidProofs.v
theories/SaidProps.v
theories/SemanticModel.v
theories/SemanticSpec.v
theories/SemanticProofs.v
theories/SemanticSaidProofs.v
theories/SemanticProps.v
theories/CommentSpec.v
theories/CommentProofs.v
theories/CommentParseProofs.v
theories/CommentBlockProofs.v
theories/CommentLeadProofs.v
theories/CommentTextSpec.v
theories/CommentInlineProofs.v
theories/CommentProps.v
theories/AttrLookupModel.v
theories/AttrLookupSpec.v
theories/AttrLookupProofs.v
theories/AttrLookupProps.v
theories/IconModel.v
theories/IconSpec.v
theories/IconProofs.v
theories/IconProps.v
theories/SvgModel.v
theories/SvgSpec.v
theories/SvgProofs.v
theories/SvgProps.v
theories/VideoModel.v
theories/VideoSpec.v
theories/VideoProofs.v
theories/VideoProps.v
theories/PanicProps.v
