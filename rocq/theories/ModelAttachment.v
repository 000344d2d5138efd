(** Model of src/attachment.cpp (values; ownership is in ModelHeap.v). *)

From Coq Require Import Ascii String List NArith ZArith Bool.
From Verif Require Import Base ModelUtil ModelBase64.
Import ListNotations.
Open Scope N_scope.

(** The value of an Attachment (attachment.h: mName, mFilename, mContentId). *)
Record attachment := mkAtt { at_name : str; at_file : str; at_cid : str }.

(** attachment.cpp:11-32, constructor.  [None] is a null pointer. *)
Definition attachment_new (file name cid : option str) : outcome attachment :=
  match file with
  | None => Undef (UB_NullDeref PArg)
  | Some f0 =>
      let f := cstr f0 in
      obind (match f with
             | [] => Done true
             | _ => obind (trim f) (fun t => Done (match t with [] => true | _ => false end))
             end) (fun blank =>
      if blank then Throw
      else match name with
           | None => Undef (UB_NullDeref PArg)
           | Some n0 =>
               match cid with
               | None => Undef (UB_NullDeref PArg)
               | Some c0 => Done (mkAtt (cstr n0) f (cstr c0))
               end
           end)
  end.

(** attachment.cpp:113-118 [setContentId]. *)
Definition setContentId (a : attachment) (cid : option str) : outcome attachment :=
  match cid with
  | None => Undef (UB_NullDeref PArg)
  | Some c0 => Done (mkAtt (at_name a) (at_file a) (cstr c0))
  end.

(** [std::string::find_last_of(c)]. *)
Fixpoint find_last_of (c : ascii) (s : str) : option nat :=
  match s with
  | [] => None
  | x :: r => match find_last_of c r with
              | Some n => Some (S n)
              | None => if Ascii.eqb x c then Some 0%nat else None
              end
  end.

(** attachment.cpp:157: [substr(find_last_of('.') + 1)]; npos + 1 wraps to 0. *)
Definition extension (f : str) : str :=
  toUpper (match find_last_of "."%char f with
           | Some n => skipn (S n) f
           | None => f
           end).

(** attachment.cpp:155-330 [getMimeType]: the chain of comparisons, in source
    order. *)
Definition getMimeType (a : attachment) : str :=
  let e := extension (at_file a) in
  if str_eqb e (B "PNG") then B "image/png" (* :159 *) else
  if str_eqb e (B "JPEG") || str_eqb e (B "JPG") || str_eqb e (B "JPE") then B "image/jpeg" (* :162 *) else
  if str_eqb e (B "GIF") then B "image/gif" (* :165 *) else
  if str_eqb e (B "TIFF") || str_eqb e (B "TIF") then B "image/tiff" (* :168 *) else
  if str_eqb e (B "ICO") then B "image/x-icon" (* :171 *) else
  if str_eqb e (B "XML") || str_eqb e (B "XSL") then B "application/xml" (* :175 *) else
  if str_eqb e (B "XHTML") || str_eqb e (B "XHT") then B "application/xhtml+xml" (* :178 *) else
  if str_eqb e (B "PDF") then B "application/pdf" (* :181 *) else
  if str_eqb e (B "JS") then B "application/javascript" (* :184 *) else
  if str_eqb e (B "CSS") then B "text/css" (* :188 *) else
  if str_eqb e (B "CSV") then B "text/csv" (* :191 *) else
  if str_eqb e (B "HTML") || str_eqb e (B "HTM") then B "text/html" (* :194 *) else
  if str_eqb e (B "TXT") || str_eqb e (B "TEXT") || str_eqb e (B "CONF") || str_eqb e (B "DEF") || str_eqb e (B "LIST") || str_eqb e (B "LOG") || str_eqb e (B "IN") then B "text/plain" (* :197 *) else
  if str_eqb e (B "MPEG") || str_eqb e (B "MPG") || str_eqb e (B "MPE") || str_eqb e (B "M1V") || str_eqb e (B "M2V") then B "video/mpeg" (* :203 *) else
  if str_eqb e (B "MP4") || str_eqb e (B "MP4V") || str_eqb e (B "MPG4") then B "video/mp4" (* :207 *) else
  if str_eqb e (B "QT") || str_eqb e (B "MOV") then B "video/quicktime" (* :210 *) else
  if str_eqb e (B "WMV") then B "video/x-ms-wmv" (* :213 *) else
  if str_eqb e (B "AVI") then B "video/x-msvideo" (* :216 *) else
  if str_eqb e (B "FLV") then B "video/x-flv" (* :219 *) else
  if str_eqb e (B "WEBM") then B "video/webm" (* :222 *) else
  if str_eqb e (B "WAV") then B "audio/wav" (* :226 *) else
  if str_eqb e (B "MP3") then B "audio/mpeg" (* :229 *) else
  if str_eqb e (B "OGA") then B "audio/ogg" (* :232 *) else
  if str_eqb e (B "OPUS") then B "audio/opus" (* :235 *) else
  if str_eqb e (B "AAC") then B "audio/aac" (* :238 *) else
  if str_eqb e (B "ZIP") then B "application/zip" (* :242 *) else
  if str_eqb e (B "RAR") then B "application/x-rar-compressed" (* :245 *) else
  if str_eqb e (B "ODT") then B "application/vnd.oasis.opendocument.text" (* :249 *) else
  if str_eqb e (B "ODS") then B "application/vnd.oasis.opendocument.spreadsheet" (* :252 *) else
  if str_eqb e (B "ODP") then B "application/vnd.oasis.opendocument.presentation" (* :255 *) else
  if str_eqb e (B "ODG") then B "application/vnd.oasis.opendocument.graphics" (* :258 *) else
  if str_eqb e (B "XLS") || str_eqb e (B "XLM") || str_eqb e (B "XLA") || str_eqb e (B "XLC") || str_eqb e (B "XLT") || str_eqb e (B "XLW") then B "application/vnd.ms-excel" (* :261 *) else
  if str_eqb e (B "XLAM") then B "application/vnd.ms-excel.addin.macroenabled.12" (* :265 *) else
  if str_eqb e (B "XLSB") then B "application/vnd.ms-excel.sheet.binary.macroenabled.12" (* :268 *) else
  if str_eqb e (B "XLSM") then B "application/vnd.ms-excel.sheet.macroenabled.12" (* :271 *) else
  if str_eqb e (B "XLTM") then B "application/vnd.ms-excel.template.macroenabled.12" (* :274 *) else
  if str_eqb e (B "XLSX") then B "application/vnd.openxmlformats-officedocument.spreadsheetml.sheet" (* :277 *) else
  if str_eqb e (B "XLTX") then B "application/vnd.openxmlformats-officedocument.spreadsheetml.template" (* :280 *) else
  if str_eqb e (B "PPT") || str_eqb e (B "PPS") || str_eqb e (B "POT") then B "application/vnd.ms-powerpoint" (* :283 *) else
  if str_eqb e (B "PPAM") then B "application/vnd.ms-powerpoint.addin.macroenabled.12" (* :286 *) else
  if str_eqb e (B "PPTM") then B "application/vnd.ms-powerpoint.presentation.macroenabled.12" (* :289 *) else
  if str_eqb e (B "SLDM") then B "application/vnd.ms-powerpoint.slide.macroenabled.12" (* :292 *) else
  if str_eqb e (B "PPSM") then B "application/vnd.ms-powerpoint.slideshow.macroenabled.12" (* :295 *) else
  if str_eqb e (B "POTM") then B "application/vnd.ms-powerpoint.template.macroenabled.12" (* :298 *) else
  if str_eqb e (B "PPTX") then B "application/vnd.openxmlformats-officedocument.presentationml.presentation" (* :301 *) else
  if str_eqb e (B "SLDX") then B "application/vnd.openxmlformats-officedocument.presentationml.slide" (* :304 *) else
  if str_eqb e (B "PPSX") then B "application/vnd.openxmlformats-officedocument.presentationml.slideshow" (* :307 *) else
  if str_eqb e (B "POTX") then B "application/vnd.openxmlformats-officedocument.presentationml.template" (* :310 *) else
  if str_eqb e (B "DOC") then B "application/msword" (* :313 *) else
  if str_eqb e (B "DOT") then B "application/msword" (* :316 *) else
  if str_eqb e (B "DOCX") then B "application/vnd.openxmlformats-officedocument.wordprocessingml.document" (* :319 *) else
  if str_eqb e (B "DOTX") then B "application/vnd.openxmlformats-officedocument.wordprocessingml.template" (* :322 *) else
  if str_eqb e (B "XUL") then B "application/vnd.mozilla.xul+xml" (* :325 *) else
  B "".

(** The file system: contents of the files that can be opened for reading. *)
Definition filesystem := str -> option str.

(** attachment.cpp:132-153 [getBase64EncodedFile].  [None] is the null
    pointer returned when the file cannot be opened.  Line 138 casts the file
    size to [unsigned int]: only [size mod 2^32] bytes are read.  The test of
    line 140 always holds (a size_t below 2^32).  Assumption: an opened file is
    read completely by line 141. *)
Definition getBase64EncodedFile (fs : filesystem) (a : attachment) : option str :=
  match fs (at_file a) with
  | None => None
  | Some contents => Some (Encode (firstn (N.to_nat (u32 (slen contents))) contents))
  end.
