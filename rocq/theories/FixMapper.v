(** The text the mapper makes for the structs of generate/avro_test_data, against the functions convertToAvro that are
    recorded there, without white space. Written by tools/fixmapper.py. *)
From stdpp Require Import strings list gmap.
From Coq Require Import Ascii.
From Verif Require Import GoStr Val Conv Avro AvroRun Mapper CaseMapper World.

Fixpoint squash (s : string) : string :=
  match s with
  | EmptyString => EmptyString
  | String a s' => if bool_decide (a ∈ [" "%char; "010"%char; "009"%char]) then squash s' else String a (squash s')
  end.
(** gofmt leaves out a comma before a closing brace on the same line *)
Fixpoint trailing (s : string) : string :=
  match s with
  | String a (String b _ as s') => if bool_decide (a = ","%char /\ b = "}"%char) then trailing s' else String a (trailing s')
  | _ => s
  end.
Definition text (pkg : string) (o : option (option mfields)) : option (string * string) :=
  match o with
  | Some (Some c) => Some (trailing (squash (join "" (map (show_def pkg af_json) (mf_pre c)))), trailing (squash (show_fields pkg (mf_fields c))))
  | _ => None
  end.

(** generate/avro_test_data/nested.go, avro/nested and nested_avro.go *)
Definition nested_base : list (string * list afield) := [].
Definition nested_g : list afield := [AField ["FactCheckClaims"] (EArray (EStruct [AField ["AppearanceURLs"] (EArray (EStruct [AField ["Original"] (EIdent "bool") "`json:""original,omitempty""`" ""; AField ["Url"] (EIdent "string") "`json:""url""`" ""])) "`json:""appearanceURLs,omitempty""`" ""; AField ["Author"] (EIdent "string") "`json:""author,omitempty""`" ""; AField ["Claim"] (EIdent "string") "`json:""claim,omitempty""`" ""; AField ["Date"] (EIdent "string") "`json:""date,omitempty""`" ""; AField ["Rating"] (EIdent "string") "`json:""rating,omitempty""`" ""])) "`json:""factCheckClaims""`" ""].
Definition nested_avro : list (string * list afield) :=
  [("AppearanceURLs_record", [AField ["Original"] (EIdent "bool") "`json:""original""`" ""; AField ["Url"] (EIdent "string") "`json:""url""`" ""]);
   ("ArrayAppearanceURLs_recordWrapper", [AField ["Target"] (EStar (EArray (EStar (EIdent "AppearanceURLs_record")))) "" ""]);
   ("ArrayFactCheckClaims_recordWrapper", [AField ["Target"] (EStar (EArray (EStar (EIdent "FactCheckClaims_record")))) "" ""]);
   ("FactCheckClaims_record", [AField ["AppearanceURLs"] (EArray (EStar (EIdent "AppearanceURLs_record"))) "`json:""appearanceURLs""`" ""; AField ["Author"] (EStar (EIdent "UnionNullString")) "`json:""author""`" ""; AField ["Claim"] (EStar (EIdent "UnionNullString")) "`json:""claim""`" ""; AField ["Date"] (EStar (EIdent "UnionNullString")) "`json:""date""`" ""; AField ["Rating"] (EStar (EIdent "UnionNullString")) "`json:""rating""`" ""]);
   ("Nested", [AField ["AvroWriteTime"] (EIdent "int64") "`json:""AvroWriteTime""`" ""; AField ["AvroDeleted"] (EIdent "bool") "`json:""AvroDeleted""`" ""; AField ["FactCheckClaims"] (EArray (EStar (EIdent "FactCheckClaims_record"))) "`json:""factCheckClaims""`" ""]);
   ("UnionNullString", [AField ["Null"] (EStar (ESel "types" "NullVal")) "" ""; AField ["String"] (EIdent "string") "" ""; AField ["UnionType"] (EIdent "UnionNullStringTypeEnum") "" ""])].
Example nested_text :
  text "nested" (generate_mapping W0 (package nested_base) nowhere (pkg_of nested_avro) 30 "Nested" (EStruct nested_g)) =
  Some ("AppearanceURLs_recordSlice:=func(in[]struct{Originalbool`json:""original,omitempty""`Urlstring`json:""url""`})[]*nested.AppearanceURLs_record{converted:=make([]*nested.AppearanceURLs_record,len(in))fori,z:=rangein{converted[i]=&nested.AppearanceURLs_record{Original:z.Original,Url:z.Url}}returnconverted}FactCheckClaims_recordSlice:=func(in[]struct{AppearanceURLs[]struct{Originalbool`json:""original,omitempty""`Urlstring`json:""url""`}`json:""appearanceURLs,omitempty""`Authorstring`json:""author,omitempty""`Claimstring`json:""claim,omitempty""`Datestring`json:""date,omitempty""`Ratingstring`json:""rating,omitempty""`})[]*nested.FactCheckClaims_record{converted:=make([]*nested.FactCheckClaims_record,len(in))fori,z:=rangein{converted[i]=&nested.FactCheckClaims_record{AppearanceURLs:AppearanceURLs_recordSlice(z.AppearanceURLs),Author:&nested.UnionNullString{String:z.Author,UnionType:nested.UnionNullStringTypeEnumString},Claim:&nested.UnionNullString{String:z.Claim,UnionType:nested.UnionNullStringTypeEnumString},Date:&nested.UnionNullString{String:z.Date,UnionType:nested.UnionNullStringTypeEnumString},Rating:&nested.UnionNullString{String:z.Rating,UnionType:nested.UnionNullStringTypeEnumString}}}returnconverted}",
    "FactCheckClaims:FactCheckClaims_recordSlice(z.FactCheckClaims),").
Proof. vm_compute. reflexivity. Qed.

(** generate/avro_test_data/arrays.go, avro/arrays and arrays_avro.go *)
Definition arrays_base : list (string * list afield) := [].
Definition arrays_g : list afield := [AField ["Heights"] (EArray (EIdent "int64")) "`json:""heights,omitempty""`" ""; AField ["Parents"] (EArray (EStruct [AField ["Count"] (EIdent "int64") "`json:""count""`" ""; AField ["Children"] (EArray (EIdent "string")) "`json:""children""`" ""; AField ["Date"] (ESel "time" "Time") "`json:""date""`" ""; AField ["Info"] (EStruct [AField ["Name"] (EIdent "string") "`json:""name""`" ""; AField ["Age"] (EIdent "int64") "`json:""age""`" ""]) "`json:""info""`" ""])) "`json:""parents""`" ""].
Definition arrays_avro : list (string * list afield) :=
  [("ArrayLongWrapper", [AField ["Target"] (EStar (EArray (EIdent "int64"))) "" ""]);
   ("ArrayParents_recordWrapper", [AField ["Target"] (EStar (EArray (EStar (EIdent "Parents_record")))) "" ""]);
   ("ArrayStringWrapper", [AField ["Target"] (EStar (EArray (EIdent "string"))) "" ""]);
   ("Arrays", [AField ["AvroWriteTime"] (EIdent "int64") "`json:""AvroWriteTime""`" ""; AField ["AvroDeleted"] (EIdent "bool") "`json:""AvroDeleted""`" ""; AField ["Heights"] (EArray (EIdent "int64")) "`json:""heights""`" ""; AField ["Parents"] (EArray (EStar (EIdent "Parents_record"))) "`json:""parents""`" ""]);
   ("Info_record", [AField ["Name"] (EIdent "string") "`json:""name""`" ""; AField ["Age"] (EIdent "int64") "`json:""age""`" ""]);
   ("Parents_record", [AField ["Count"] (EIdent "int64") "`json:""count""`" ""; AField ["Children"] (EArray (EIdent "string")) "`json:""children""`" ""; AField ["Date"] (EIdent "int64") "`json:""date""`" ""; AField ["Info"] (EStar (EIdent "Info_record")) "`json:""info""`" ""])].
Example arrays_text :
  text "arrays" (generate_mapping W0 (package arrays_base) nowhere (pkg_of arrays_avro) 30 "Arrays" (EStruct arrays_g)) =
  Some ("Parents_recordSlice:=func(in[]struct{Countint64`json:""count""`Children[]string`json:""children""`Datetime.Time`json:""date""`Infostruct{Namestring`json:""name""`Ageint64`json:""age""`}`json:""info""`})[]*arrays.Parents_record{converted:=make([]*arrays.Parents_record,len(in))fori,z:=rangein{converted[i]=&arrays.Parents_record{Count:z.Count,Children:z.Children,Date:generate.AvroTime(z.Date),Info:&arrays.Info_record{Name:z.Info.Name,Age:z.Info.Age}}}returnconverted}",
    "Heights:z.Heights,Parents:Parents_recordSlice(z.Parents),").
Proof. vm_compute. reflexivity. Qed.

(** generate/avro_test_data/repeats.go, avro/repeats and repeats_avro.go *)
Definition repeats_base : list (string * list afield) := [].
Definition repeats_g : list afield := [AField ["Height"] (EIdent "int64") "`json:""height,omitempty""`" ""; AField ["SomeDateObj"] (EStruct [AField ["Type"] (EIdent "string") "`json:""type""`" ""; AField ["Visible"] (EIdent "bool") "`json:""visible,omitempty""`" ""]) "`json:""someDateObj,omitzero""`" ""; AField ["Type"] (EIdent "string") "`json:""type""`" ""; AField ["Visible"] (EIdent "bool") "`json:""visible,omitempty""`" ""; AField ["Width"] (EIdent "float64") "`json:""width,omitempty""`" ""].
Definition repeats_avro : list (string * list afield) :=
  [("Repeats", [AField ["AvroWriteTime"] (EIdent "int64") "`json:""AvroWriteTime""`" ""; AField ["AvroDeleted"] (EIdent "bool") "`json:""AvroDeleted""`" ""; AField ["Height"] (EStar (EIdent "UnionNullLong")) "`json:""height""`" ""; AField ["SomeDateObj"] (EStar (EIdent "SomeDateObj_record")) "`json:""someDateObj""`" ""; AField ["Type"] (EIdent "string") "`json:""type""`" ""; AField ["Visible"] (EIdent "bool") "`json:""visible""`" ""; AField ["Width"] (EStar (EIdent "UnionNullDouble")) "`json:""width""`" ""]);
   ("SomeDateObj_record", [AField ["Type"] (EIdent "string") "`json:""type""`" ""; AField ["Visible"] (EIdent "bool") "`json:""visible""`" ""]);
   ("UnionNullDouble", [AField ["Null"] (EStar (ESel "types" "NullVal")) "" ""; AField ["Double"] (EIdent "float64") "" ""; AField ["UnionType"] (EIdent "UnionNullDoubleTypeEnum") "" ""]);
   ("UnionNullLong", [AField ["Null"] (EStar (ESel "types" "NullVal")) "" ""; AField ["Long"] (EIdent "int64") "" ""; AField ["UnionType"] (EIdent "UnionNullLongTypeEnum") "" ""]);
   ("UnionNullSomeDateObj_record", [AField ["Null"] (EStar (ESel "types" "NullVal")) "" ""; AField ["SomeDateObj_record"] (EStar (EIdent "SomeDateObj_record")) "" ""; AField ["UnionType"] (EIdent "UnionNullSomeDateObj_recordTypeEnum") "" ""])].
Example repeats_text :
  text "repeats" (generate_mapping W0 (package repeats_base) nowhere (pkg_of repeats_avro) 30 "Repeats" (EStruct repeats_g)) =
  Some ("",
    "Height:&repeats.UnionNullLong{Long:z.Height,UnionType:repeats.UnionNullLongTypeEnumLong},SomeDateObj:&repeats.SomeDateObj_record{Type:z.SomeDateObj.Type,Visible:z.SomeDateObj.Visible},Type:z.Type,Visible:z.Visible,Width:&repeats.UnionNullDouble{Double:z.Width,UnionType:repeats.UnionNullDoubleTypeEnumDouble},").
Proof. vm_compute. reflexivity. Qed.

(** generate/avro_test_data/complex.go, avro/complex and complex_avro.go *)
Definition complex_base : list (string * list afield) := [("Simple", [AField ["Contributors"] (EArray (EStruct [AField ["ContributorId"] (EIdent "string") "`json:""contributorId,omitempty""`" ""; AField ["Id"] (EIdent "string") "`json:""id""`" ""; AField ["Name"] (EIdent "string") "`json:""name""`" ""])) "`json:""contributors,omitempty""`" ""; AField ["Height"] (EIdent "int64") "`json:""height,omitempty""`" ""; AField ["SomeDateObj"] (EStruct [AField ["Dates"] (EArray (ESel "time" "Time")) "`json:""dates,omitempty""`" ""]) "`json:""someDateObj,omitzero""`" ""; AField ["Type"] (EIdent "string") "`json:""type""`" ""; AField ["Visible"] (EIdent "bool") "`json:""visible,omitempty""`" ""; AField ["Width"] (EIdent "float64") "`json:""width,omitempty""`" ""])].
Definition complex_g : list afield := [AField [] (EIdent "Simple") "" ""; AField ["Caption"] (EIdent "string") "`json:""caption""`" ""; AField ["Credit"] (EIdent "string") "`json:""credit""`" ""; AField ["Crops"] (EArray (EStruct [AField ["Height"] (EIdent "float64") "`json:""height""`" ""; AField ["Name"] (EIdent "string") "`json:""name""`" ""; AField ["Path"] (EIdent "string") "`json:""path""`" ""; AField ["RelativePath"] (EIdent "string") "`json:""relativePath""`" ""; AField ["Width"] (EIdent "float64") "`json:""width""`" ""])) "`json:""crops""`" ""; AField ["Cutline"] (EIdent "string") "`json:""cutline,omitempty""`" ""; AField ["DatePhotoTaken"] (ESel "time" "Time") "`json:""datePhotoTaken""`" ""; AField ["Orientation"] (EIdent "string") "`json:""orientation""`" ""; AField ["OriginalSize"] (EStruct [AField ["Height"] (EIdent "float64") "`json:""height""`" ""; AField ["Width"] (EIdent "float64") "`json:""width""`" ""]) "`json:""originalSize""`" ""; AField ["Type"] (EIdent "string") "`json:""type""`" ""; AField ["URL"] (EStruct [AField ["Absolute"] (EIdent "string") "`json:""absolute""`" ""; AField ["Meta"] (EStruct [AField ["Description"] (EIdent "string") "`json:""description""`" ""; AField ["SiteName"] (EIdent "string") "`json:""siteName""`" ""]) "`json:""meta,omitzero""`" ""; AField ["Publish"] (EIdent "string") "`json:""publish""`" ""]) "`json:""URL""`" ""].
Definition complex_avro : list (string * list afield) :=
  [("ArrayContributors_recordWrapper", [AField ["Target"] (EStar (EArray (EStar (EIdent "Contributors_record")))) "" ""]);
   ("ArrayCrops_recordWrapper", [AField ["Target"] (EStar (EArray (EStar (EIdent "Crops_record")))) "" ""]);
   ("ArrayLongWrapper", [AField ["Target"] (EStar (EArray (EIdent "int64"))) "" ""]);
   ("Complex", [AField ["AvroWriteTime"] (EIdent "int64") "`json:""AvroWriteTime""`" ""; AField ["AvroDeleted"] (EIdent "bool") "`json:""AvroDeleted""`" ""; AField ["Contributors"] (EArray (EStar (EIdent "Contributors_record"))) "`json:""contributors""`" ""; AField ["Height"] (EStar (EIdent "UnionNullLong")) "`json:""height""`" ""; AField ["SomeDateObj"] (EStar (EIdent "SomeDateObj_record")) "`json:""someDateObj""`" ""; AField ["Visible"] (EIdent "bool") "`json:""visible""`" ""; AField ["Width"] (EStar (EIdent "UnionNullDouble")) "`json:""width""`" ""; AField ["Caption"] (EIdent "string") "`json:""caption""`" ""; AField ["Credit"] (EIdent "string") "`json:""credit""`" ""; AField ["Crops"] (EArray (EStar (EIdent "Crops_record"))) "`json:""crops""`" ""; AField ["Cutline"] (EStar (EIdent "UnionNullString")) "`json:""cutline""`" ""; AField ["DatePhotoTaken"] (EIdent "int64") "`json:""datePhotoTaken""`" ""; AField ["Orientation"] (EIdent "string") "`json:""orientation""`" ""; AField ["OriginalSize"] (EStar (EIdent "OriginalSize_record")) "`json:""originalSize""`" ""; AField ["Type"] (EIdent "string") "`json:""type""`" ""; AField ["URL"] (EStar (EIdent "URL_record")) "`json:""URL""`" ""]);
   ("Contributors_record", [AField ["ContributorId"] (EStar (EIdent "UnionNullString")) "`json:""contributorId""`" ""; AField ["Id"] (EIdent "string") "`json:""id""`" ""; AField ["Name"] (EIdent "string") "`json:""name""`" ""]);
   ("Crops_record", [AField ["Height"] (EIdent "float64") "`json:""height""`" ""; AField ["Name"] (EIdent "string") "`json:""name""`" ""; AField ["Path"] (EIdent "string") "`json:""path""`" ""; AField ["RelativePath"] (EIdent "string") "`json:""relativePath""`" ""; AField ["Width"] (EIdent "float64") "`json:""width""`" ""]);
   ("Meta_record", [AField ["Description"] (EIdent "string") "`json:""description""`" ""; AField ["SiteName"] (EIdent "string") "`json:""siteName""`" ""]);
   ("OriginalSize_record", [AField ["Height"] (EIdent "float64") "`json:""height""`" ""; AField ["Width"] (EIdent "float64") "`json:""width""`" ""]);
   ("SomeDateObj_record", [AField ["Dates"] (EArray (EIdent "int64")) "`json:""dates""`" ""]);
   ("UnionNullDouble", [AField ["Null"] (EStar (ESel "types" "NullVal")) "" ""; AField ["Double"] (EIdent "float64") "" ""; AField ["UnionType"] (EIdent "UnionNullDoubleTypeEnum") "" ""]);
   ("UnionNullLong", [AField ["Null"] (EStar (ESel "types" "NullVal")) "" ""; AField ["Long"] (EIdent "int64") "" ""; AField ["UnionType"] (EIdent "UnionNullLongTypeEnum") "" ""]);
   ("UnionNullMeta_record", [AField ["Null"] (EStar (ESel "types" "NullVal")) "" ""; AField ["Meta_record"] (EStar (EIdent "Meta_record")) "" ""; AField ["UnionType"] (EIdent "UnionNullMeta_recordTypeEnum") "" ""]);
   ("UnionNullSomeDateObj_record", [AField ["Null"] (EStar (ESel "types" "NullVal")) "" ""; AField ["SomeDateObj_record"] (EStar (EIdent "SomeDateObj_record")) "" ""; AField ["UnionType"] (EIdent "UnionNullSomeDateObj_recordTypeEnum") "" ""]);
   ("UnionNullString", [AField ["Null"] (EStar (ESel "types" "NullVal")) "" ""; AField ["String"] (EIdent "string") "" ""; AField ["UnionType"] (EIdent "UnionNullStringTypeEnum") "" ""]);
   ("URL_record", [AField ["Absolute"] (EIdent "string") "`json:""absolute""`" ""; AField ["Meta"] (EStar (EIdent "Meta_record")) "`json:""meta""`" ""; AField ["Publish"] (EIdent "string") "`json:""publish""`" ""])].
Example complex_text :
  text "complex" (generate_mapping W0 (package complex_base) nowhere (pkg_of complex_avro) 30 "Complex" (EStruct complex_g)) =
  Some ("Contributors_recordSlice:=func(in[]struct{ContributorIdstring`json:""contributorId,omitempty""`Idstring`json:""id""`Namestring`json:""name""`})[]*complex.Contributors_record{converted:=make([]*complex.Contributors_record,len(in))fori,z:=rangein{converted[i]=&complex.Contributors_record{ContributorId:&complex.UnionNullString{String:z.ContributorId,UnionType:complex.UnionNullStringTypeEnumString},Id:z.Id,Name:z.Name}}returnconverted}Crops_recordSlice:=func(in[]struct{Heightfloat64`json:""height""`Namestring`json:""name""`Pathstring`json:""path""`RelativePathstring`json:""relativePath""`Widthfloat64`json:""width""`})[]*complex.Crops_record{converted:=make([]*complex.Crops_record,len(in))fori,z:=rangein{converted[i]=&complex.Crops_record{Height:z.Height,Name:z.Name,Path:z.Path,RelativePath:z.RelativePath,Width:z.Width}}returnconverted}",
    "Contributors:Contributors_recordSlice(z.Contributors),Height:&complex.UnionNullLong{Long:z.Height,UnionType:complex.UnionNullLongTypeEnumLong},SomeDateObj:&complex.SomeDateObj_record{Dates:generate.AvroTimeSlice(z.SomeDateObj.Dates)},Visible:z.Visible,Width:&complex.UnionNullDouble{Double:z.Width,UnionType:complex.UnionNullDoubleTypeEnumDouble},Caption:z.Caption,Credit:z.Credit,Crops:Crops_recordSlice(z.Crops),Cutline:&complex.UnionNullString{String:z.Cutline,UnionType:complex.UnionNullStringTypeEnumString},DatePhotoTaken:generate.AvroTime(z.DatePhotoTaken),Orientation:z.Orientation,OriginalSize:&complex.OriginalSize_record{Height:z.OriginalSize.Height,Width:z.OriginalSize.Width},Type:z.Type,URL:&complex.URL_record{Absolute:z.URL.Absolute,Meta:&complex.Meta_record{Description:z.URL.Meta.Description,SiteName:z.URL.Meta.SiteName},Publish:z.URL.Publish},").
Proof. vm_compute. reflexivity. Qed.

(** generate/avro_test_data/simple.go, avro/simple and simple_avro.go *)
Definition simple_base : list (string * list afield) := [].
Definition simple_g : list afield := [AField ["Contributors"] (EArray (EStruct [AField ["ContributorId"] (EIdent "string") "`json:""contributorId,omitempty""`" ""; AField ["Id"] (EIdent "string") "`json:""id""`" ""; AField ["Name"] (EIdent "string") "`json:""name""`" ""])) "`json:""contributors,omitempty""`" ""; AField ["Height"] (EIdent "int64") "`json:""height,omitempty""`" ""; AField ["SomeDateObj"] (EStruct [AField ["Dates"] (EArray (ESel "time" "Time")) "`json:""dates,omitempty""`" ""]) "`json:""someDateObj,omitzero""`" ""; AField ["Type"] (EIdent "string") "`json:""type""`" ""; AField ["Visible"] (EIdent "bool") "`json:""visible,omitempty""`" ""; AField ["Width"] (EIdent "float64") "`json:""width,omitempty""`" ""].
Definition simple_avro : list (string * list afield) :=
  [("ArrayContributors_recordWrapper", [AField ["Target"] (EStar (EArray (EStar (EIdent "Contributors_record")))) "" ""]);
   ("ArrayLongWrapper", [AField ["Target"] (EStar (EArray (EIdent "int64"))) "" ""]);
   ("Contributors_record", [AField ["ContributorId"] (EStar (EIdent "UnionNullString")) "`json:""contributorId""`" ""; AField ["Id"] (EIdent "string") "`json:""id""`" ""; AField ["Name"] (EIdent "string") "`json:""name""`" ""]);
   ("Simple", [AField ["AvroWriteTime"] (EIdent "int64") "`json:""AvroWriteTime""`" ""; AField ["AvroDeleted"] (EIdent "bool") "`json:""AvroDeleted""`" ""; AField ["Contributors"] (EArray (EStar (EIdent "Contributors_record"))) "`json:""contributors""`" ""; AField ["Height"] (EStar (EIdent "UnionNullLong")) "`json:""height""`" ""; AField ["SomeDateObj"] (EStar (EIdent "SomeDateObj_record")) "`json:""someDateObj""`" ""; AField ["Type"] (EIdent "string") "`json:""type""`" ""; AField ["Visible"] (EIdent "bool") "`json:""visible""`" ""; AField ["Width"] (EStar (EIdent "UnionNullDouble")) "`json:""width""`" ""]);
   ("SomeDateObj_record", [AField ["Dates"] (EArray (EIdent "int64")) "`json:""dates""`" ""]);
   ("UnionNullDouble", [AField ["Null"] (EStar (ESel "types" "NullVal")) "" ""; AField ["Double"] (EIdent "float64") "" ""; AField ["UnionType"] (EIdent "UnionNullDoubleTypeEnum") "" ""]);
   ("UnionNullLong", [AField ["Null"] (EStar (ESel "types" "NullVal")) "" ""; AField ["Long"] (EIdent "int64") "" ""; AField ["UnionType"] (EIdent "UnionNullLongTypeEnum") "" ""]);
   ("UnionNullSomeDateObj_record", [AField ["Null"] (EStar (ESel "types" "NullVal")) "" ""; AField ["SomeDateObj_record"] (EStar (EIdent "SomeDateObj_record")) "" ""; AField ["UnionType"] (EIdent "UnionNullSomeDateObj_recordTypeEnum") "" ""]);
   ("UnionNullString", [AField ["Null"] (EStar (ESel "types" "NullVal")) "" ""; AField ["String"] (EIdent "string") "" ""; AField ["UnionType"] (EIdent "UnionNullStringTypeEnum") "" ""])].
Example simple_text :
  text "simple" (generate_mapping W0 (package simple_base) nowhere (pkg_of simple_avro) 30 "Simple" (EStruct simple_g)) =
  Some ("Contributors_recordSlice:=func(in[]struct{ContributorIdstring`json:""contributorId,omitempty""`Idstring`json:""id""`Namestring`json:""name""`})[]*simple.Contributors_record{converted:=make([]*simple.Contributors_record,len(in))fori,z:=rangein{converted[i]=&simple.Contributors_record{ContributorId:&simple.UnionNullString{String:z.ContributorId,UnionType:simple.UnionNullStringTypeEnumString},Id:z.Id,Name:z.Name}}returnconverted}",
    "Contributors:Contributors_recordSlice(z.Contributors),Height:&simple.UnionNullLong{Long:z.Height,UnionType:simple.UnionNullLongTypeEnumLong},SomeDateObj:&simple.SomeDateObj_record{Dates:generate.AvroTimeSlice(z.SomeDateObj.Dates)},Type:z.Type,Visible:z.Visible,Width:&simple.UnionNullDouble{Double:z.Width,UnionType:simple.UnionNullDoubleTypeEnumDouble},").
Proof. vm_compute. reflexivity. Qed.

(** generate/avro_test_data/times.go, avro/times and times_avro.go *)
Definition times_base : list (string * list afield) := [].
Definition times_g : list afield := [AField ["NonRequiredDate"] (ESel "time" "Time") "`json:""nonRequiredDate,omitempty""`" ""; AField ["RequiredDate"] (ESel "time" "Time") "`json:""requiredDate""`" ""].
Definition times_avro : list (string * list afield) :=
  [("Times", [AField ["AvroWriteTime"] (EIdent "int64") "`json:""AvroWriteTime""`" ""; AField ["AvroDeleted"] (EIdent "bool") "`json:""AvroDeleted""`" ""; AField ["NonRequiredDate"] (EStar (EIdent "UnionNullLong")) "`json:""nonRequiredDate""`" ""; AField ["RequiredDate"] (EIdent "int64") "`json:""requiredDate""`" ""]);
   ("UnionNullLong", [AField ["Null"] (EStar (ESel "types" "NullVal")) "" ""; AField ["Long"] (EIdent "int64") "" ""; AField ["UnionType"] (EIdent "UnionNullLongTypeEnum") "" ""])].
Example times_text :
  text "times" (generate_mapping W0 (package times_base) nowhere (pkg_of times_avro) 30 "Times" (EStruct times_g)) =
  Some ("",
    "NonRequiredDate:&times.UnionNullLong{Long:generate.AvroTime(z.NonRequiredDate),UnionType:times.UnionNullLongTypeEnumLong},RequiredDate:generate.AvroTime(z.RequiredDate),").
Proof. vm_compute. reflexivity. Qed.

