-Q theories Verif
theories/GoBase.v
theories/GoSpec.v
theories/GoFacts.v
theories/AttrModel.v
theories/AttrSpec.v
theories/AttrProofs.v
theories/AttrProps.v
theories/SchemaModel.v
theories/SchemaSpec.v
theories/SchemaProofs.v
theories/StackProofs.v
theories/SchemaProps.v
theories/LinkbaseModel.v
theories/LinkbaseSpec.v
theories/LinkbaseProofs.v
theories/LinkbaseProps.v
theories/InstanceModel.v
theories/InstanceSpec.v
theories/InstanceProofs.v
theories/InstanceProps.v
theories/HydrateModel.v
theories/HydrateSpec.v
theories/HydrateProofs.v
theories/HydrateProps.v
theories/CatalogModel.v
theories/CatalogSpec.v
theories/CatalogProofs.v
theories/CatalogProps.v
theories/LabelModel.v
theories/LabelSpec.v
theories/LabelProofs.v
theories/LabelProps.v
theories/PeriodModel.v
theories/PeriodSpec.v
theories/PeriodProofs.v
theories/PeriodProps.v
theories/FactModel.v
theories/FactSpec.v
theories/FactProofs.v
theories/FactProps.v
theories/GridModel.v
theories/GridSpec.v
theories/GridProofs.v
theories/GridProps.v
theories/CalcModel.v
theories/CalcSpec.v
theories/CalcProofs.v
theories/CalcProps.v
theories/DefModel.v
theories/DefSpec.v
theories/DefProofs.v
theories/DefProps.v
theories/RenderModel.v
theories/RenderSpec.v
theories/RenderProofs.v
theories/RenderProps.v
theories/ExpressModel.v
theories/ExpressSpec.v
theories/ExpressProofs.v
theories/ExpressProps.v
theories/CacheModel.v
theories/CacheSpec.v
theories/CacheProofs.v
theories/CacheProps.v
theories/WebModel.v
theories/WebSpec.v
theories/WebProofs.v
theories/WebProps.v
theories/PathModel.v
theories/PathSpec.v
theories/PathProofs.v
theories/PathProps.v
theories/ImageModel.v
theories/ImageSpec.v
theories/ImageProofs.v
theories/ImageProps.v
theories/UnderscoreModel.v
theories/UnderscoreSpec.v
theories/UnderscoreProofs.v
theories/UnderscoreProps.v
theories/JsonModel.v
theories/JsonSpec.v
theories/JsonProofs.v
theories/JsonProps.v
theories/DiscoverModel.v
theories/DiscoverSpec.v
theories/DiscoverProofs.v
theories/DiscoverProps.v
theories/XmlModel.v
theories/XmlSpec.v
theories/XmlProofs.v
theories/XmlProps.v
theories/LoadModel.v
theories/LoadSpec.v
theories/LoadProofs.v
theories/LoadProps.v
theories/ResponseModel.v
theories/ResponseSpec.v
theories/ResponseProofs.v
theories/ResponseProps.v
theories/RouterModel.v
theories/RouterSpec.v
theories/RouterProofs.v
theories/RouterProps.v
theories/EndToEndSpec.v
theories/ReportModel.v
theories/EndToEndProps.v
theories/ReportSpec.v
theories/ReportProofs.v
theories/ReportProps.v
theories/ColumnSpec.v
theories/ColumnProofs.v
theories/ColumnProps.v
theories/MissedProps.v
theories/AskSpec.v
theories/AskProps.v
theories/NetworkSpec.v
theories/NetworkProps.v
theories/DimNetSpec.v
theories/DimNetProps.v
theories/CrashProps.v
theories/ServerModel.v
theories/ServerSpec.v
theories/ServerProps.v
theories/ServedProps.v
theories/LifeProps.v
theories/IsolateSpec.v
theories/IsolateProofs.v
theories/IsolateProps.v
theories/SetupModel.v
theories/SetupProps.v
theories/ReaderSpec.v
theories/ReaderProps.v
theories/OrderSpec.v
theories/OrderProps.v
theories/HeaderProps.v
theories/TextSpec.v
theories/TextProofs.v
theories/TextProps.v
theories/MainModel.v
theories/MainSpec.v
theories/MainProofs.v
theories/MainProps.v
theories/KeptSpec.v
theories/KeptProps.v
theories/SteadySpec.v
theories/SteadyProofs.v
theories/SteadyProps.v
theories/NewCacheModel.v
theories/NewCacheSpec.v
theories/NewCacheProps.v
theories/OpenSpec.v
theories/OpenProps.v
theories/ChangeModel.v
theories/ChangeSpec.v
theories/ChangeProofs.v
theories/ChangeProps.v
theories/TaxonomySpec.v
theories/TaxonomyProps.v
theories/BrowserModel.v
theories/BrowserSpec.v
theories/BrowserProofs.v
theories/BrowserProps.v
theories/LangSpec.v
theories/LangProofs.v
theories/LangProps.v
theories/TypedModel.v
theories/TypedSpec.v
theories/TypedProps.v
theories/SizeSpec.v
theories/SizeProps.v
theories/OneLabelSpec.v
theories/OneLabelProps.v
theories/PaddedProps.v
theories/WriteModel.v
theories/WriteSpec.v
theories/WriteProps.v
theories/SteadyCalcSpec.v
theories/SteadyCalcProps.v
theories/DocNameSpec.v
theories/DocNameProps.v
theories/DimRowSpec.v
theories/DimRowProofs.v
theories/DimRowProps.v
theories/InertSpec.v
theories/InertProofs.v
theories/InertProps.v
theories/SameSpec.v
theories/SameProofs.v
theories/SameProps.v
theories/FactSameProps.v
theories/AlikeProofs.v
theories/AlikeProps.v
theories/AlikeNetProps.v
theories/AlikeDimProps.v
theories/TableFactSpec.v
theories/TableFactProps.v
theories/TableGridSpec.v
theories/TableGridProps.v
theories/ErrorSpec.v
theories/ErrorProps.v
theories/ErrorServedProps.v
theories/ListedSpec.v
theories/ListedProps.v
theories/AddressSpec.v
theories/AddressProps.v
