(** File extensions and MIME types. *)

From Coq Require Import Ascii String List NArith ZArith Bool.
From Verif Require Import Base SpecText.
Import ListNotations.

(** [e] is the extension of [f]: what follows the last dot, or the whole name
    when there is no dot. *)
Definition extension_of (f e : str) : Prop :=
  (exists p, f = p ++ "."%char :: e /\ ~ In "."%char e) \/ (~ In "."%char f /\ e = f).

(** [k] is [e] in upper case. *)
Definition upper_of (e k : str) : Prop := Forall2 (case_mapped lower_letters upper_letters) e k.

(** The types the library knows, ordered by type. *)
Definition mime_table : list (str * str) :=
  [
    (B "JS", B "application/javascript");
    (B "DOC", B "application/msword");
    (B "DOT", B "application/msword");
    (B "PDF", B "application/pdf");
    (B "XUL", B "application/vnd.mozilla.xul+xml");
    (B "XLA", B "application/vnd.ms-excel");
    (B "XLC", B "application/vnd.ms-excel");
    (B "XLM", B "application/vnd.ms-excel");
    (B "XLS", B "application/vnd.ms-excel");
    (B "XLT", B "application/vnd.ms-excel");
    (B "XLW", B "application/vnd.ms-excel");
    (B "XLAM", B "application/vnd.ms-excel.addin.macroenabled.12");
    (B "XLSB", B "application/vnd.ms-excel.sheet.binary.macroenabled.12");
    (B "XLSM", B "application/vnd.ms-excel.sheet.macroenabled.12");
    (B "XLTM", B "application/vnd.ms-excel.template.macroenabled.12");
    (B "POT", B "application/vnd.ms-powerpoint");
    (B "PPS", B "application/vnd.ms-powerpoint");
    (B "PPT", B "application/vnd.ms-powerpoint");
    (B "PPAM", B "application/vnd.ms-powerpoint.addin.macroenabled.12");
    (B "PPTM", B "application/vnd.ms-powerpoint.presentation.macroenabled.12");
    (B "SLDM", B "application/vnd.ms-powerpoint.slide.macroenabled.12");
    (B "PPSM", B "application/vnd.ms-powerpoint.slideshow.macroenabled.12");
    (B "POTM", B "application/vnd.ms-powerpoint.template.macroenabled.12");
    (B "ODG", B "application/vnd.oasis.opendocument.graphics");
    (B "ODP", B "application/vnd.oasis.opendocument.presentation");
    (B "ODS", B "application/vnd.oasis.opendocument.spreadsheet");
    (B "ODT", B "application/vnd.oasis.opendocument.text");
    (B "PPTX", B "application/vnd.openxmlformats-officedocument.presentationml.presentation");
    (B "SLDX", B "application/vnd.openxmlformats-officedocument.presentationml.slide");
    (B "PPSX", B "application/vnd.openxmlformats-officedocument.presentationml.slideshow");
    (B "POTX", B "application/vnd.openxmlformats-officedocument.presentationml.template");
    (B "XLSX", B "application/vnd.openxmlformats-officedocument.spreadsheetml.sheet");
    (B "XLTX", B "application/vnd.openxmlformats-officedocument.spreadsheetml.template");
    (B "DOCX", B "application/vnd.openxmlformats-officedocument.wordprocessingml.document");
    (B "DOTX", B "application/vnd.openxmlformats-officedocument.wordprocessingml.template");
    (B "RAR", B "application/x-rar-compressed");
    (B "XHT", B "application/xhtml+xml");
    (B "XHTML", B "application/xhtml+xml");
    (B "XML", B "application/xml");
    (B "XSL", B "application/xml");
    (B "ZIP", B "application/zip");
    (B "AAC", B "audio/aac");
    (B "MP3", B "audio/mpeg");
    (B "OGA", B "audio/ogg");
    (B "OPUS", B "audio/opus");
    (B "WAV", B "audio/wav");
    (B "GIF", B "image/gif");
    (B "JPE", B "image/jpeg");
    (B "JPEG", B "image/jpeg");
    (B "JPG", B "image/jpeg");
    (B "PNG", B "image/png");
    (B "TIF", B "image/tiff");
    (B "TIFF", B "image/tiff");
    (B "ICO", B "image/x-icon");
    (B "CSS", B "text/css");
    (B "CSV", B "text/csv");
    (B "HTM", B "text/html");
    (B "HTML", B "text/html");
    (B "CONF", B "text/plain");
    (B "DEF", B "text/plain");
    (B "IN", B "text/plain");
    (B "LIST", B "text/plain");
    (B "LOG", B "text/plain");
    (B "TEXT", B "text/plain");
    (B "TXT", B "text/plain");
    (B "MP4", B "video/mp4");
    (B "MP4V", B "video/mp4");
    (B "MPG4", B "video/mp4");
    (B "M1V", B "video/mpeg");
    (B "M2V", B "video/mpeg");
    (B "MPE", B "video/mpeg");
    (B "MPEG", B "video/mpeg");
    (B "MPG", B "video/mpeg");
    (B "MOV", B "video/quicktime");
    (B "QT", B "video/quicktime");
    (B "WEBM", B "video/webm");
    (B "FLV", B "video/x-flv");
    (B "WMV", B "video/x-ms-wmv");
    (B "AVI", B "video/x-msvideo")
  ].
