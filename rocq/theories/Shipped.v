(** GENERATED by tools/gen_shipped.py from the source text of eulxml/xmlmap/{mods,dc,premis,teimap,eadmap,cerp}.py:
    one row per xmlmap field declared in a shipped class, in source order.  r_file, r_line: where it is declared;
    r_kind: one node or a list, and the mapper its field class installs (fields.py:504-730: StringField and SchemaField
    a StringMapper, IntegerField an IntegerMapper, SimpleBooleanField a SimpleBooleanMapper, NodeField a NodeMapper);
    r_ns: the ROOT_NAMESPACES the class declares or inherits; r_xpath: the XPath string.  Fields with no XPath
    (ItemField, the property pairs of cerp.py) are not in the table. *)
From Coq Require Import String List ZArith.
From Verif Require Import Mappers.
Import ListNotations.
Local Open Scope string_scope.

Inductive rkind := Single (m : mapper) | Many (m : mapper).
Record row := mkRow { r_file : string; r_line : nat; r_class : string; r_field : string; r_kind : rkind; r_ns : list (str * str); r_xpath : str }.

(** ROOT_NAMESPACES of the classes in mods.py *)
Definition ns_mods : list (str * str) := [(u "mods", u "http://www.loc.gov/mods/v3")].
(** ROOT_NAMESPACES of the classes in dc.py *)
Definition ns_dc : list (str * str) := [(u "oai_dc", u "http://www.openarchives.org/OAI/2.0/oai_dc/"); (u "dc", u "http://purl.org/dc/elements/1.1/")].
(** ROOT_NAMESPACES of the classes in premis.py *)
Definition ns_premis : list (str * str) := [(u "p", u "info:lc/xmlns/premis-v2"); (u "xsi", u "http://www.w3.org/2001/XMLSchema-instance")].
(** ROOT_NAMESPACES of the classes in teimap.py *)
Definition ns_teimap : list (str * str) := [(u "tei", u "http://www.tei-c.org/ns/1.0"); (u "xml", u "http://www.w3.org/XML/1998/namespace")].
(** ROOT_NAMESPACES of the classes in eadmap.py *)
Definition ns_eadmap : list (str * str) := [(u "e", u "urn:isbn:1-931666-22-9"); (u "xlink", u "http://www.w3.org/1999/xlink"); (u "exist", u "http://exist.sourceforge.net/NS/exist")].
(** ROOT_NAMESPACES of the classes in cerp.py *)
Definition ns_cerp : list (str * str) := [(u "xm", u "http://www.archives.ncdcr.gov/mail-account")].

(** the field declarations of eulxml/xmlmap/mods.py *)
Definition rows_mods : list row := [
  mkRow "mods.py" 51 "Date" "date" (Single (MString false)) ns_mods (u "text()");
  mkRow "mods.py" 52 "Date" "key_date" (Single (MBool (u "yes") None)) ns_mods (u "@keyDate");
  mkRow "mods.py" 53 "Date" "encoding" (Single (MString false)) ns_mods (u "@encoding");
  mkRow "mods.py" 54 "Date" "point" (Single (MString false)) ns_mods (u "@point");
  mkRow "mods.py" 55 "Date" "qualifier" (Single (MString false)) ns_mods (u "@qualifier");
  mkRow "mods.py" 87 "DateOther" "type" (Single (MString false)) ns_mods (u "@type");
  mkRow "mods.py" 92 "OriginInfo" "created" (Many MNode) ns_mods (u "mods:dateCreated");
  mkRow "mods.py" 96 "OriginInfo" "issued" (Many MNode) ns_mods (u "mods:dateIssued");
  mkRow "mods.py" 99 "OriginInfo" "captured" (Many MNode) ns_mods (u "mods:dateCaptured");
  mkRow "mods.py" 102 "OriginInfo" "valid" (Many MNode) ns_mods (u "mods:dateValid");
  mkRow "mods.py" 105 "OriginInfo" "modified" (Many MNode) ns_mods (u "mods:dateModified");
  mkRow "mods.py" 108 "OriginInfo" "copyright" (Many MNode) ns_mods (u "mods:copyrightDate");
  mkRow "mods.py" 111 "OriginInfo" "other" (Many MNode) ns_mods (u "mods:dateOther");
  mkRow "mods.py" 114 "OriginInfo" "publisher" (Single (MString false)) ns_mods (u "mods:publisher");
  mkRow "mods.py" 125 "RecordInfo" "record_id" (Single (MString false)) ns_mods (u "mods:recordIdentifier");
  mkRow "mods.py" 126 "RecordInfo" "record_origin" (Single (MString false)) ns_mods (u "mods:recordOrigin");
  mkRow "mods.py" 127 "RecordInfo" "creation_date" (Single (MString false)) ns_mods (u "mods:recordCreationDate[@encoding=""w3cdtf""]");
  mkRow "mods.py" 128 "RecordInfo" "change_date" (Single (MString false)) ns_mods (u "mods:recordChangeDate[@encoding=""w3cdtf""]");
  mkRow "mods.py" 133 "Note" "label" (Single (MString false)) ns_mods (u "@displayLabel");
  mkRow "mods.py" 134 "Note" "type" (Single (MString false)) ns_mods (u "@type");
  mkRow "mods.py" 135 "Note" "text" (Single (MString false)) ns_mods (u "text()");
  mkRow "mods.py" 152 "Identifier" "type" (Single (MString false)) ns_mods (u "@type");
  mkRow "mods.py" 153 "Identifier" "text" (Single (MString false)) ns_mods (u "text()");
  mkRow "mods.py" 154 "Identifier" "label" (Single (MString false)) ns_mods (u "@displayLabel");
  mkRow "mods.py" 159 "AccessCondition" "type" (Single (MString false)) ns_mods (u "@type");
  mkRow "mods.py" 161 "AccessCondition" "text" (Single (MString false)) ns_mods (u "text()");
  mkRow "mods.py" 168 "NamePart" "type" (Single (MString false)) ns_mods (u "@type");
  mkRow "mods.py" 170 "NamePart" "text" (Single (MString false)) ns_mods (u "text()");
  mkRow "mods.py" 175 "Role" "type" (Single (MString false)) ns_mods (u "mods:roleTerm/@type");
  mkRow "mods.py" 176 "Role" "authority" (Single (MString false)) ns_mods (u "mods:roleTerm/@authority");
  mkRow "mods.py" 177 "Role" "text" (Single (MString false)) ns_mods (u "mods:roleTerm");
  mkRow "mods.py" 183 "Name" "type" (Single (MString false)) ns_mods (u "@type");
  mkRow "mods.py" 184 "Name" "authority" (Single (MString false)) ns_mods (u "@authority");
  mkRow "mods.py" 185 "Name" "id" (Single (MString false)) ns_mods (u "@ID");
  mkRow "mods.py" 186 "Name" "name_parts" (Many MNode) ns_mods (u "mods:namePart");
  mkRow "mods.py" 187 "Name" "display_form" (Single (MString false)) ns_mods (u "mods:displayForm");
  mkRow "mods.py" 188 "Name" "affiliation" (Single (MString false)) ns_mods (u "mods:affiliation");
  mkRow "mods.py" 189 "Name" "roles" (Many MNode) ns_mods (u "mods:role");
  mkRow "mods.py" 199 "Genre" "authority" (Single (MString false)) ns_mods (u "@authority");
  mkRow "mods.py" 200 "Genre" "text" (Single (MString false)) ns_mods (u "text()");
  mkRow "mods.py" 204 "LanguageTerm" "type" (Single (MString false)) ns_mods (u "@type");
  mkRow "mods.py" 205 "LanguageTerm" "authority" (Single (MString false)) ns_mods (u "@authority");
  mkRow "mods.py" 206 "LanguageTerm" "text" (Single (MString false)) ns_mods (u "text()");
  mkRow "mods.py" 210 "Language" "terms" (Many MNode) ns_mods (u "mods:languageTerm");
  mkRow "mods.py" 214 "Location" "physical" (Single (MString false)) ns_mods (u "mods:physicalLocation");
  mkRow "mods.py" 215 "Location" "url" (Single (MString false)) ns_mods (u "mods:url");
  mkRow "mods.py" 221 "Subject" "authority" (Single (MString false)) ns_mods (u "@authority");
  mkRow "mods.py" 222 "Subject" "id" (Single (MString false)) ns_mods (u "@ID");
  mkRow "mods.py" 225 "Subject" "geographic" (Single (MString false)) ns_mods (u "mods:geographic");
  mkRow "mods.py" 226 "Subject" "name" (Single MNode) ns_mods (u "mods:name");
  mkRow "mods.py" 227 "Subject" "topic" (Single (MString false)) ns_mods (u "mods:topic");
  mkRow "mods.py" 228 "Subject" "title" (Single (MString false)) ns_mods (u "mods:titleInfo/mods:title");
  mkRow "mods.py" 233 "TitleInfo" "title" (Single (MString false)) ns_mods (u "mods:title");
  mkRow "mods.py" 234 "TitleInfo" "subtitle" (Single (MString false)) ns_mods (u "mods:subTitle");
  mkRow "mods.py" 235 "TitleInfo" "part_number" (Single (MString false)) ns_mods (u "mods:partNumber");
  mkRow "mods.py" 236 "TitleInfo" "part_name" (Single (MString false)) ns_mods (u "mods:partName");
  mkRow "mods.py" 237 "TitleInfo" "non_sort" (Single (MString false)) ns_mods (u "mods:nonSort");
  mkRow "mods.py" 238 "TitleInfo" "type" (Single (MString false)) ns_mods (u "@type");
  mkRow "mods.py" 239 "TitleInfo" "label" (Single (MString false)) ns_mods (u "@displayLabel");
  mkRow "mods.py" 250 "Abstract" "text" (Single (MString false)) ns_mods (u "text()");
  mkRow "mods.py" 251 "Abstract" "type" (Single (MString false)) ns_mods (u "@type");
  mkRow "mods.py" 252 "Abstract" "label" (Single (MString false)) ns_mods (u "@displayLabel");
  mkRow "mods.py" 256 "PhysicalDescription" "media_type" (Single (MString false)) ns_mods (u "mods:internetMediaType");
  mkRow "mods.py" 257 "PhysicalDescription" "extent" (Single (MString false)) ns_mods (u "mods:extent");
  mkRow "mods.py" 261 "PartDetail" "type" (Single (MString false)) ns_mods (u "@type");
  mkRow "mods.py" 262 "PartDetail" "number" (Single (MString false)) ns_mods (u "mods:number");
  mkRow "mods.py" 274 "PartExtent" "unit" (Single (MString false)) ns_mods (u "@unit");
  mkRow "mods.py" 275 "PartExtent" "start" (Single (MString false)) ns_mods (u "mods:start");
  mkRow "mods.py" 276 "PartExtent" "end" (Single (MString false)) ns_mods (u "mods:end");
  mkRow "mods.py" 277 "PartExtent" "total" (Single (MString false)) ns_mods (u "mods:total");
  mkRow "mods.py" 290 "Part" "type" (Single (MString false)) ns_mods (u "@type");
  mkRow "mods.py" 291 "Part" "details" (Many MNode) ns_mods (u "mods:detail");
  mkRow "mods.py" 292 "Part" "extent" (Single MNode) ns_mods (u "mods:extent");
  mkRow "mods.py" 307 "BaseMods" "id" (Single (MString false)) ns_mods (u "@ID");
  mkRow "mods.py" 308 "BaseMods" "title" (Single (MString false)) ns_mods (u "mods:titleInfo/mods:title");
  mkRow "mods.py" 309 "BaseMods" "title_info" (Single MNode) ns_mods (u "mods:titleInfo");
  mkRow "mods.py" 310 "BaseMods" "title_info_list" (Many MNode) ns_mods (u "mods:titleInfo");
  mkRow "mods.py" 311 "BaseMods" "resource_type" (Single (MString false)) ns_mods (u "mods:typeOfResource");
  mkRow "mods.py" 312 "BaseMods" "name" (Single MNode) ns_mods (u "mods:name");
  mkRow "mods.py" 313 "BaseMods" "names" (Many MNode) ns_mods (u "mods:name");
  mkRow "mods.py" 314 "BaseMods" "note" (Single MNode) ns_mods (u "mods:note");
  mkRow "mods.py" 315 "BaseMods" "notes" (Many MNode) ns_mods (u "mods:note");
  mkRow "mods.py" 316 "BaseMods" "origin_info" (Single MNode) ns_mods (u "mods:originInfo");
  mkRow "mods.py" 317 "BaseMods" "record_info" (Single MNode) ns_mods (u "mods:recordInfo");
  mkRow "mods.py" 318 "BaseMods" "identifiers" (Many MNode) ns_mods (u "mods:identifier");
  mkRow "mods.py" 319 "BaseMods" "access_conditions" (Many MNode) ns_mods (u "mods:accessCondition");
  mkRow "mods.py" 320 "BaseMods" "genres" (Many MNode) ns_mods (u "mods:genre");
  mkRow "mods.py" 321 "BaseMods" "languages" (Many MNode) ns_mods (u "mods:language");
  mkRow "mods.py" 322 "BaseMods" "location" (Single (MString false)) ns_mods (u "mods:location/mods:physicalLocation");
  mkRow "mods.py" 324 "BaseMods" "locations" (Many MNode) ns_mods (u "mods:location");
  mkRow "mods.py" 325 "BaseMods" "subjects" (Many MNode) ns_mods (u "mods:subject");
  mkRow "mods.py" 326 "BaseMods" "physical_description" (Single MNode) ns_mods (u "mods:physicalDescription");
  mkRow "mods.py" 327 "BaseMods" "abstract" (Single MNode) ns_mods (u "mods:abstract");
  mkRow "mods.py" 328 "BaseMods" "parts" (Many MNode) ns_mods (u "mods:part");
  mkRow "mods.py" 334 "RelatedItem" "type" (Single (MString false)) ns_mods (u "@type");
  mkRow "mods.py" 335 "RelatedItem" "label" (Single (MString false)) ns_mods (u "@displayLabel");
  mkRow "mods.py" 343 "MODS" "related_items" (Many MNode) ns_mods (u "mods:relatedItem")
].

(** the field declarations of eulxml/xmlmap/dc.py *)
Definition rows_dc : list row := [
  mkRow "dc.py" 35 "DublinCoreElement" "name" (Single (MString false)) ns_dc (u "local-name(.)");
  mkRow "dc.py" 36 "DublinCoreElement" "value" (Single (MString false)) ns_dc (u ".");
  mkRow "dc.py" 50 "DublinCore" "contributor" (Single (MString false)) ns_dc (u "dc:contributor");
  mkRow "dc.py" 51 "DublinCore" "contributor_list" (Many (MString false)) ns_dc (u "dc:contributor");
  mkRow "dc.py" 54 "DublinCore" "coverage" (Single (MString false)) ns_dc (u "dc:coverage");
  mkRow "dc.py" 55 "DublinCore" "coverage_list" (Many (MString false)) ns_dc (u "dc:coverage");
  mkRow "dc.py" 58 "DublinCore" "creator" (Single (MString false)) ns_dc (u "dc:creator");
  mkRow "dc.py" 59 "DublinCore" "creator_list" (Many (MString false)) ns_dc (u "dc:creator");
  mkRow "dc.py" 62 "DublinCore" "date" (Single (MString false)) ns_dc (u "dc:date");
  mkRow "dc.py" 63 "DublinCore" "date_list" (Many (MString false)) ns_dc (u "dc:date");
  mkRow "dc.py" 66 "DublinCore" "description" (Single (MString false)) ns_dc (u "dc:description");
  mkRow "dc.py" 67 "DublinCore" "description_list" (Many (MString false)) ns_dc (u "dc:description");
  mkRow "dc.py" 70 "DublinCore" "format" (Single (MString false)) ns_dc (u "dc:format");
  mkRow "dc.py" 71 "DublinCore" "format_list" (Many (MString false)) ns_dc (u "dc:format");
  mkRow "dc.py" 74 "DublinCore" "identifier" (Single (MString false)) ns_dc (u "dc:identifier");
  mkRow "dc.py" 75 "DublinCore" "identifier_list" (Many (MString false)) ns_dc (u "dc:identifier");
  mkRow "dc.py" 78 "DublinCore" "language" (Single (MString false)) ns_dc (u "dc:language");
  mkRow "dc.py" 79 "DublinCore" "language_list" (Many (MString false)) ns_dc (u "dc:language");
  mkRow "dc.py" 82 "DublinCore" "publisher" (Single (MString false)) ns_dc (u "dc:publisher");
  mkRow "dc.py" 83 "DublinCore" "publisher_list" (Many (MString false)) ns_dc (u "dc:publisher");
  mkRow "dc.py" 86 "DublinCore" "relation" (Single (MString false)) ns_dc (u "dc:relation");
  mkRow "dc.py" 87 "DublinCore" "relation_list" (Many (MString false)) ns_dc (u "dc:relation");
  mkRow "dc.py" 90 "DublinCore" "rights" (Single (MString false)) ns_dc (u "dc:rights");
  mkRow "dc.py" 91 "DublinCore" "rights_list" (Many (MString false)) ns_dc (u "dc:rights");
  mkRow "dc.py" 94 "DublinCore" "source" (Single (MString false)) ns_dc (u "dc:source");
  mkRow "dc.py" 95 "DublinCore" "source_list" (Many (MString false)) ns_dc (u "dc:source");
  mkRow "dc.py" 98 "DublinCore" "subject" (Single (MString false)) ns_dc (u "dc:subject");
  mkRow "dc.py" 99 "DublinCore" "subject_list" (Many (MString false)) ns_dc (u "dc:subject");
  mkRow "dc.py" 102 "DublinCore" "title" (Single (MString false)) ns_dc (u "dc:title");
  mkRow "dc.py" 103 "DublinCore" "title_list" (Many (MString false)) ns_dc (u "dc:title");
  mkRow "dc.py" 106 "DublinCore" "type" (Single (MString false)) ns_dc (u "dc:type");
  mkRow "dc.py" 107 "DublinCore" "type_list" (Many (MString false)) ns_dc (u "dc:type");
  mkRow "dc.py" 110 "DublinCore" "elements" (Many MNode) ns_dc (u "dc:*")
].

(** the field declarations of eulxml/xmlmap/premis.py *)
Definition rows_premis : list row := [
  mkRow "premis.py" 70 "Object" "type" (Single (MString false)) ns_premis (u "@xsi:type");
  mkRow "premis.py" 80 "Object" "id_type" (Single (MString false)) ns_premis (u "p:objectIdentifier/p:objectIdentifierType");
  mkRow "premis.py" 82 "Object" "id" (Single (MString false)) ns_premis (u "p:objectIdentifier/p:objectIdentifierValue");
  mkRow "premis.py" 99 "Event" "type" (Single (MString false)) ns_premis (u "p:eventType");
  mkRow "premis.py" 101 "Event" "id_type" (Single (MString false)) ns_premis (u "p:eventIdentifier/p:eventIdentifierType");
  mkRow "premis.py" 103 "Event" "id" (Single (MString false)) ns_premis (u "p:eventIdentifier/p:eventIdentifierValue");
  mkRow "premis.py" 105 "Event" "date" (Single (MString false)) ns_premis (u "p:eventDateTime");
  mkRow "premis.py" 107 "Event" "detail" (Single (MString false)) ns_premis (u "p:eventDetail");
  mkRow "premis.py" 109 "Event" "outcome" (Single (MString false)) ns_premis (u "p:eventOutcomeInformation/p:eventOutcome");
  mkRow "premis.py" 119 "Event" "agent_type" (Single (MString false)) ns_premis (u "p:linkingAgentIdentifier/p:linkingAgentIdentifierType");
  mkRow "premis.py" 120 "Event" "agent_id" (Single (MString false)) ns_premis (u "p:linkingAgentIdentifier/p:linkingAgentIdentifierValue");
  mkRow "premis.py" 123 "Event" "object_type" (Single (MString false)) ns_premis (u "p:linkingObjectIdentifier/p:linkingObjectIdentifierType");
  mkRow "premis.py" 124 "Event" "object_id" (Single (MString false)) ns_premis (u "p:linkingObjectIdentifier/p:linkingObjectIdentifierValue");
  mkRow "premis.py" 137 "Premis" "version" (Single (MString false)) ns_premis (u "@version");
  mkRow "premis.py" 140 "Premis" "object" (Single MNode) ns_premis (u "p:object");
  mkRow "premis.py" 142 "Premis" "events" (Many MNode) ns_premis (u "p:event")
].

(** the field declarations of eulxml/xmlmap/teimap.py *)
Definition rows_teimap : list row := [
  mkRow "teimap.py" 34 "TeiLine" "rend" (Single (MString false)) ns_teimap (u "@rend");
  mkRow "teimap.py" 46 "TeiLineGroup" "head" (Single (MString false)) ns_teimap (u "tei:head");
  mkRow "teimap.py" 47 "TeiLineGroup" "linegroup" (Many MNode) ns_teimap (u "tei:lg");
  mkRow "teimap.py" 48 "TeiLineGroup" "line" (Many MNode) ns_teimap (u "tei:l");
  mkRow "teimap.py" 52 "TeiQuote" "line" (Many MNode) ns_teimap (u "tei:l");
  mkRow "teimap.py" 53 "TeiQuote" "linegroup" (Many MNode) ns_teimap (u "tei:lg");
  mkRow "teimap.py" 56 "TeiEpigraph" "quote" (Many MNode) ns_teimap (u "tei:q|tei:quote|tei:cit/tei:q|tei:cit/tei:quote");
  mkRow "teimap.py" 57 "TeiEpigraph" "bibl" (Single (MString false)) ns_teimap (u "tei:bibl");
  mkRow "teimap.py" 61 "TeiDiv" "id" (Single (MString false)) ns_teimap (u "@xml:id");
  mkRow "teimap.py" 62 "TeiDiv" "type" (Single (MString false)) ns_teimap (u "@type");
  mkRow "teimap.py" 63 "TeiDiv" "author" (Single (MString false)) ns_teimap (u "tei:docAuthor/tei:name/tei:choice/tei:sic");
  mkRow "teimap.py" 64 "TeiDiv" "docauthor" (Single (MString false)) ns_teimap (u "tei:docAuthor");
  mkRow "teimap.py" 65 "TeiDiv" "title" (Single (MString false)) ns_teimap (u "tei:head[1]");
  mkRow "teimap.py" 66 "TeiDiv" "title_list" (Many (MString false)) ns_teimap (u "tei:head");
  mkRow "teimap.py" 67 "TeiDiv" "text" (Single (MString false)) ns_teimap (u ".");
  mkRow "teimap.py" 68 "TeiDiv" "linegroup" (Many MNode) ns_teimap (u "tei:lg");
  mkRow "teimap.py" 69 "TeiDiv" "div" (Many MNode) ns_teimap (u "tei:div");
  mkRow "teimap.py" 70 "TeiDiv" "byline" (Single (MString false)) ns_teimap (u "tei:byline");
  mkRow "teimap.py" 71 "TeiDiv" "epigraph" (Many MNode) ns_teimap (u "tei:epigraph");
  mkRow "teimap.py" 72 "TeiDiv" "p" (Many (MString false)) ns_teimap (u "tei:p");
  mkRow "teimap.py" 73 "TeiDiv" "q" (Many (MString false)) ns_teimap (u "tei:q");
  mkRow "teimap.py" 74 "TeiDiv" "quote" (Many (MString false)) ns_teimap (u "tei:quote");
  mkRow "teimap.py" 75 "TeiDiv" "floatingText" (Many MNode) ns_teimap (u "tei:floatingText/tei:body/tei:div");
  mkRow "teimap.py" 78 "TeiFloatingText" "head" (Single (MString false)) ns_teimap (u "./tei:body/tei:head");
  mkRow "teimap.py" 79 "TeiFloatingText" "line_group" (Many MNode) ns_teimap (u ".//tei:lg");
  mkRow "teimap.py" 80 "TeiFloatingText" "line" (Many MNode) ns_teimap (u ".//tei:l");
  mkRow "teimap.py" 87 "TeiFigure" "ana" (Single (MString false)) ns_teimap (u "@ana");
  mkRow "teimap.py" 88 "TeiFigure" "head" (Single (MString false)) ns_teimap (u "tei:head");
  mkRow "teimap.py" 89 "TeiFigure" "description" (Single (MString false)) ns_teimap (u "tei:figDesc");
  mkRow "teimap.py" 90 "TeiFigure" "entity" (Single (MString false)) ns_teimap (u "tei:graphic/@url");
  mkRow "teimap.py" 91 "TeiFigure" "floatingText" (Many MNode) ns_teimap (u "tei:floatingText");
  mkRow "teimap.py" 96 "TeiInterp" "id" (Single (MString false)) ns_teimap (u "@xml:id");
  mkRow "teimap.py" 97 "TeiInterp" "value" (Single (MString false)) ns_teimap (u ".");
  mkRow "teimap.py" 101 "TeiSection" "div" (Many MNode) ns_teimap (u "tei:div");
  mkRow "teimap.py" 102 "TeiSection" "all_figures" (Many MNode) ns_teimap (u ".//tei:figure");
  mkRow "teimap.py" 106 "TeiInterpGroup" "type" (Single (MString false)) ns_teimap (u "@type");
  mkRow "teimap.py" 107 "TeiInterpGroup" "interp" (Many MNode) ns_teimap (u "tei:interp");
  mkRow "teimap.py" 110 "TeiName" "type" (Single (MString false)) ns_teimap (u "@person");
  mkRow "teimap.py" 111 "TeiName" "reg" (Single (MString false)) ns_teimap (u "tei:choice/tei:reg");
  mkRow "teimap.py" 113 "TeiName" "value" (Single (MString false)) ns_teimap (u "tei:choice/tei:sic");
  mkRow "teimap.py" 118 "TeiHeader" "title" (Single (MString false)) ns_teimap (u "tei:fileDesc/tei:titleStmt/tei:title");
  mkRow "teimap.py" 119 "TeiHeader" "author_list" (Many MNode) ns_teimap (u "tei:fileDesc/tei:titleStmt/tei:author/tei:name");
  mkRow "teimap.py" 121 "TeiHeader" "editor_list" (Many MNode) ns_teimap (u "tei:fileDesc/tei:titleStmt/tei:editor/tei:name");
  mkRow "teimap.py" 123 "TeiHeader" "publisher" (Single (MString false)) ns_teimap (u "tei:fileDesc/tei:publicationStmt/tei:publisher");
  mkRow "teimap.py" 124 "TeiHeader" "publication_date" (Single (MString false)) ns_teimap (u "tei:fileDesc/tei:publicationStmt/tei:date");
  mkRow "teimap.py" 125 "TeiHeader" "availability" (Single (MString false)) ns_teimap (u "tei:fileDesc/tei:publicationStmt/tei:availability");
  mkRow "teimap.py" 126 "TeiHeader" "source_description" (Single (MString false)) ns_teimap (u "tei:fileDesc/tei:sourceDesc");
  mkRow "teimap.py" 127 "TeiHeader" "series_statement" (Single (MString false)) ns_teimap (u "tei:fileDesc/tei:seriesStmt");
  mkRow "teimap.py" 132 "Tei" "id" (Single (MString false)) ns_teimap (u "@xml:id");
  mkRow "teimap.py" 133 "Tei" "title" (Single (MString false)) ns_teimap (u "tei:teiHeader/tei:fileDesc/tei:titleStmt/tei:title");
  mkRow "teimap.py" 134 "Tei" "author" (Single (MString false)) ns_teimap (u "tei:teiHeader/tei:fileDesc/tei:titleStmt/tei:author/tei:name/tei:choice/tei:sic");
  mkRow "teimap.py" 135 "Tei" "editor" (Single (MString false)) ns_teimap (u "tei:teiHeader/tei:fileDesc/tei:titleStmt/tei:editor/tei:name/tei:choice/tei:sic");
  mkRow "teimap.py" 137 "Tei" "header" (Single MNode) ns_teimap (u "tei:teiHeader");
  mkRow "teimap.py" 138 "Tei" "front" (Single MNode) ns_teimap (u "tei:text/tei:front");
  mkRow "teimap.py" 139 "Tei" "body" (Single MNode) ns_teimap (u "tei:text/tei:body");
  mkRow "teimap.py" 140 "Tei" "back" (Single MNode) ns_teimap (u "tei:text/tei:back")
].

(** the field declarations of eulxml/xmlmap/eadmap.py *)
Definition rows_eadmap : list row := [
  mkRow "eadmap.py" 44 "_EadBase" "match_count" (Single MInt) ns_eadmap (u "count(.//exist:match)");
  mkRow "eadmap.py" 51 "Note" "content" (Many MNode) ns_eadmap (u "e:p");
  mkRow "eadmap.py" 57 "Section" "head" (Single MNode) ns_eadmap (u "e:head");
  mkRow "eadmap.py" 59 "Section" "content" (Many MNode) ns_eadmap (u "e:p");
  mkRow "eadmap.py" 61 "Section" "note" (Single MNode) ns_eadmap (u "e:note");
  mkRow "eadmap.py" 68 "Heading" "source" (Single (MString false)) ns_eadmap (u "@source");
  mkRow "eadmap.py" 70 "Heading" "value" (Single (MString true)) ns_eadmap (u ".");
  mkRow "eadmap.py" 84 "ControlledAccessHeadings" "person_name" (Many MNode) ns_eadmap (u "e:persname");
  mkRow "eadmap.py" 86 "ControlledAccessHeadings" "family_name" (Many MNode) ns_eadmap (u "e:famname");
  mkRow "eadmap.py" 88 "ControlledAccessHeadings" "corporate_name" (Many MNode) ns_eadmap (u "e:corpname");
  mkRow "eadmap.py" 90 "ControlledAccessHeadings" "subject" (Many MNode) ns_eadmap (u "e:subject");
  mkRow "eadmap.py" 92 "ControlledAccessHeadings" "geographic_name" (Many MNode) ns_eadmap (u "e:geogname");
  mkRow "eadmap.py" 94 "ControlledAccessHeadings" "genre_form" (Many MNode) ns_eadmap (u "e:genreform");
  mkRow "eadmap.py" 96 "ControlledAccessHeadings" "occupation" (Many MNode) ns_eadmap (u "e:occupation");
  mkRow "eadmap.py" 98 "ControlledAccessHeadings" "function" (Many MNode) ns_eadmap (u "e:function");
  mkRow "eadmap.py" 100 "ControlledAccessHeadings" "title" (Many MNode) ns_eadmap (u "e:title");
  mkRow "eadmap.py" 103 "ControlledAccessHeadings" "terms" (Many MNode) ns_eadmap (u "e:corpname|e:famname|e:function|e:genreform|e:geogname|e:occupation|e:persname|e:subject|e:title");
  mkRow "eadmap.py" 106 "ControlledAccessHeadings" "controlaccess" (Many MNode) ns_eadmap (u "e:controlaccess");
  mkRow "eadmap.py" 117 "Container" "type" (Single (MString false)) ns_eadmap (u "@type");
  mkRow "eadmap.py" 119 "Container" "value" (Single (MString false)) ns_eadmap (u ".");
  mkRow "eadmap.py" 133 "DateField" "normalized" (Single (MString false)) ns_eadmap (u "@normal");
  mkRow "eadmap.py" 135 "DateField" "calendar" (Single (MString false)) ns_eadmap (u "@calendar");
  mkRow "eadmap.py" 137 "DateField" "era" (Single (MString false)) ns_eadmap (u "@era");
  mkRow "eadmap.py" 139 "DateField" "value" (Single (MString false)) ns_eadmap (u ".");
  mkRow "eadmap.py" 149 "Unitid" "identifier" (Single MInt) ns_eadmap (u "@identifier");
  mkRow "eadmap.py" 151 "Unitid" "country_code" (Single (MString false)) ns_eadmap (u "@countrycode");
  mkRow "eadmap.py" 153 "Unitid" "repository_code" (Single (MString false)) ns_eadmap (u "@repositorycode");
  mkRow "eadmap.py" 155 "Unitid" "value" (Single (MString false)) ns_eadmap (u ".");
  mkRow "eadmap.py" 161 "UnitTitle" "unitdate" (Single MNode) ns_eadmap (u "e:unitdate");
  mkRow "eadmap.py" 164 "UnitTitle" "text" (Single (MString false)) ns_eadmap (u "text()");
  mkRow "eadmap.py" 189 "DigitalArchivalObject" "audience" (Single (MString false)) ns_eadmap (u "@audience");
  mkRow "eadmap.py" 191 "DigitalArchivalObject" "id" (Single (MString false)) ns_eadmap (u "@id");
  mkRow "eadmap.py" 193 "DigitalArchivalObject" "title" (Single (MString false)) ns_eadmap (u "@xlink:title");
  mkRow "eadmap.py" 195 "DigitalArchivalObject" "href" (Single (MString false)) ns_eadmap (u "@xlink:href");
  mkRow "eadmap.py" 197 "DigitalArchivalObject" "show" (Single (MString false)) ns_eadmap (u "@xlink:show");
  mkRow "eadmap.py" 204 "DescriptiveIdentification" "unitid" (Single MNode) ns_eadmap (u "e:unitid");
  mkRow "eadmap.py" 206 "DescriptiveIdentification" "unittitle" (Single MNode) ns_eadmap (u "e:unittitle");
  mkRow "eadmap.py" 208 "DescriptiveIdentification" "unitdate" (Single MNode) ns_eadmap (u ".//e:unitdate");
  mkRow "eadmap.py" 210 "DescriptiveIdentification" "physdesc" (Single (MString false)) ns_eadmap (u "e:physdesc");
  mkRow "eadmap.py" 212 "DescriptiveIdentification" "abstract" (Single MNode) ns_eadmap (u "e:abstract");
  mkRow "eadmap.py" 214 "DescriptiveIdentification" "langmaterial" (Single (MString false)) ns_eadmap (u "e:langmaterial");
  mkRow "eadmap.py" 216 "DescriptiveIdentification" "origination" (Single (MString true)) ns_eadmap (u "e:origination");
  mkRow "eadmap.py" 218 "DescriptiveIdentification" "location" (Single (MString false)) ns_eadmap (u "e:physloc");
  mkRow "eadmap.py" 220 "DescriptiveIdentification" "container" (Many MNode) ns_eadmap (u "e:container");
  mkRow "eadmap.py" 222 "DescriptiveIdentification" "dao_list" (Many MNode) ns_eadmap (u "e:dao");
  mkRow "eadmap.py" 228 "Component" "level" (Single (MString false)) ns_eadmap (u "@level");
  mkRow "eadmap.py" 230 "Component" "id" (Single (MString false)) ns_eadmap (u "@id");
  mkRow "eadmap.py" 232 "Component" "did" (Single MNode) ns_eadmap (u "e:did");
  mkRow "eadmap.py" 263 "Component" "use_restriction" (Single MNode) ns_eadmap (u "e:userestrict");
  mkRow "eadmap.py" 237 "Component" "alternate_form" (Single MNode) ns_eadmap (u "e:altformavail");
  mkRow "eadmap.py" 239 "Component" "originals_location" (Single MNode) ns_eadmap (u "e:originalsloc");
  mkRow "eadmap.py" 241 "Component" "related_material" (Single MNode) ns_eadmap (u "e:relatedmaterial");
  mkRow "eadmap.py" 243 "Component" "separated_material" (Single MNode) ns_eadmap (u "e:separatedmaterial");
  mkRow "eadmap.py" 245 "Component" "acquisition_info" (Single MNode) ns_eadmap (u "e:acqinfo");
  mkRow "eadmap.py" 247 "Component" "custodial_history" (Single MNode) ns_eadmap (u "e:custodhist");
  mkRow "eadmap.py" 249 "Component" "preferred_citation" (Single MNode) ns_eadmap (u "e:prefercite");
  mkRow "eadmap.py" 251 "Component" "biography_history" (Single MNode) ns_eadmap (u "e:bioghist");
  mkRow "eadmap.py" 253 "Component" "bibliography" (Single MNode) ns_eadmap (u "e:bibliography");
  mkRow "eadmap.py" 255 "Component" "scope_content" (Single MNode) ns_eadmap (u "e:scopecontent");
  mkRow "eadmap.py" 257 "Component" "process_info" (Single MNode) ns_eadmap (u "e:processinfo");
  mkRow "eadmap.py" 259 "Component" "arrangement" (Single MNode) ns_eadmap (u "e:arrangement");
  mkRow "eadmap.py" 261 "Component" "other" (Single MNode) ns_eadmap (u "e:otherfindaid");
  mkRow "eadmap.py" 265 "Component" "access_restriction" (Single MNode) ns_eadmap (u "e:accessrestrict");
  mkRow "eadmap.py" 267 "Component" "dao_list" (Many MNode) ns_eadmap (u "e:dao");
  mkRow "eadmap.py" 270 "Component" "c" (Many MNode) ns_eadmap (u "e:c02|e:c03|e:c04|e:c05|e:c06|e:c07|e:c08|e:c09|e:c10|e:c11|e:c12");
  mkRow "eadmap.py" 296 "SubordinateComponents" "type" (Single (MString false)) ns_eadmap (u "@type");
  mkRow "eadmap.py" 298 "SubordinateComponents" "c" (Many MNode) ns_eadmap (u "e:c01");
  mkRow "eadmap.py" 322 "Reference" "type" (Single (MString false)) ns_eadmap (u "@xlink:type");
  mkRow "eadmap.py" 324 "Reference" "target" (Single (MString false)) ns_eadmap (u "@target");
  mkRow "eadmap.py" 326 "Reference" "value" (Single MNode) ns_eadmap (u ".");
  mkRow "eadmap.py" 340 "PointerGroup" "ref" (Many MNode) ns_eadmap (u "e:ref");
  mkRow "eadmap.py" 347 "IndexEntry" "name" (Single MNode) ns_eadmap (u "e:corpname|e:famname|e:function|e:genreform|e:geogname|e:name|e:namegrp|e:occupation|e:persname|e:title|e:subject");
  mkRow "eadmap.py" 350 "IndexEntry" "ptrgroup" (Single MNode) ns_eadmap (u "e:ptrgrp");
  mkRow "eadmap.py" 360 "Index" "entry" (Many MNode) ns_eadmap (u "e:indexentry");
  mkRow "eadmap.py" 362 "Index" "id" (Single (MString false)) ns_eadmap (u "@id");
  mkRow "eadmap.py" 363 "Index" "note" (Single MNode) ns_eadmap (u "e:note");
  mkRow "eadmap.py" 373 "ArchivalDescription" "did" (Single MNode) ns_eadmap (u "e:did");
  mkRow "eadmap.py" 375 "ArchivalDescription" "origination" (Single (MString true)) ns_eadmap (u "e:did/e:origination");
  mkRow "eadmap.py" 377 "ArchivalDescription" "unitid" (Single MNode) ns_eadmap (u "e:did/e:unitid");
  mkRow "eadmap.py" 379 "ArchivalDescription" "extent" (Many (MString false)) ns_eadmap (u "e:did/e:physdesc/e:extent");
  mkRow "eadmap.py" 381 "ArchivalDescription" "langmaterial" (Single (MString false)) ns_eadmap (u "e:did/e:langmaterial");
  mkRow "eadmap.py" 383 "ArchivalDescription" "location" (Single (MString false)) ns_eadmap (u "e:did/e:physloc");
  mkRow "eadmap.py" 385 "ArchivalDescription" "access_restriction" (Single MNode) ns_eadmap (u "e:accessrestrict");
  mkRow "eadmap.py" 387 "ArchivalDescription" "use_restriction" (Single MNode) ns_eadmap (u "e:userestrict");
  mkRow "eadmap.py" 389 "ArchivalDescription" "alternate_form" (Single MNode) ns_eadmap (u "e:altformavail");
  mkRow "eadmap.py" 391 "ArchivalDescription" "originals_location" (Single MNode) ns_eadmap (u "e:originalsloc");
  mkRow "eadmap.py" 393 "ArchivalDescription" "related_material" (Single MNode) ns_eadmap (u "e:relatedmaterial");
  mkRow "eadmap.py" 395 "ArchivalDescription" "separated_material" (Single MNode) ns_eadmap (u "e:separatedmaterial");
  mkRow "eadmap.py" 397 "ArchivalDescription" "acquisition_info" (Single MNode) ns_eadmap (u "e:acqinfo");
  mkRow "eadmap.py" 399 "ArchivalDescription" "custodial_history" (Single MNode) ns_eadmap (u "e:custodhist");
  mkRow "eadmap.py" 401 "ArchivalDescription" "preferred_citation" (Single MNode) ns_eadmap (u "e:prefercite");
  mkRow "eadmap.py" 403 "ArchivalDescription" "biography_history" (Single MNode) ns_eadmap (u "e:bioghist");
  mkRow "eadmap.py" 405 "ArchivalDescription" "bibliography" (Single MNode) ns_eadmap (u "e:bibliography");
  mkRow "eadmap.py" 407 "ArchivalDescription" "scope_content" (Single MNode) ns_eadmap (u "e:scopecontent");
  mkRow "eadmap.py" 409 "ArchivalDescription" "process_info" (Single MNode) ns_eadmap (u "e:archdesc/e:processinfo");
  mkRow "eadmap.py" 411 "ArchivalDescription" "arrangement" (Single MNode) ns_eadmap (u "e:arrangement");
  mkRow "eadmap.py" 413 "ArchivalDescription" "other" (Single MNode) ns_eadmap (u "e:otherfindaid");
  mkRow "eadmap.py" 415 "ArchivalDescription" "controlaccess" (Single MNode) ns_eadmap (u "e:controlaccess");
  mkRow "eadmap.py" 417 "ArchivalDescription" "index" (Many MNode) ns_eadmap (u "e:index");
  mkRow "eadmap.py" 419 "ArchivalDescription" "dao_list" (Many MNode) ns_eadmap (u "e:dao");
  mkRow "eadmap.py" 429 "Address" "lines" (Many (MString false)) ns_eadmap (u "e:addressline");
  mkRow "eadmap.py" 439 "PublicationStatement" "date" (Single MNode) ns_eadmap (u "e:date");
  mkRow "eadmap.py" 441 "PublicationStatement" "publisher" (Single (MString false)) ns_eadmap (u "e:publisher");
  mkRow "eadmap.py" 443 "PublicationStatement" "address" (Single MNode) ns_eadmap (u "e:address");
  mkRow "eadmap.py" 452 "ProfileDescription" "date" (Single MNode) ns_eadmap (u "e:creation/e:date");
  mkRow "eadmap.py" 454 "ProfileDescription" "languages" (Many (MString false)) ns_eadmap (u "e:langusage/e:language");
  mkRow "eadmap.py" 456 "ProfileDescription" "language_codes" (Many (MString false)) ns_eadmap (u "e:langusage/e:language/@langcode");
  mkRow "eadmap.py" 466 "FileDescription" "publication" (Single MNode) ns_eadmap (u "e:publicationstmt");
  mkRow "eadmap.py" 476 "EadId" "country" (Single (MString false)) ns_eadmap (u "@countrycode");
  mkRow "eadmap.py" 478 "EadId" "maintenance_agency" (Single (MString false)) ns_eadmap (u "@mainagencycode");
  mkRow "eadmap.py" 480 "EadId" "url" (Single (MString false)) ns_eadmap (u "@url");
  mkRow "eadmap.py" 482 "EadId" "identifier" (Single (MString false)) ns_eadmap (u "@identifier");
  mkRow "eadmap.py" 484 "EadId" "value" (Single (MString true)) ns_eadmap (u ".");
  mkRow "eadmap.py" 498 "EncodedArchivalDescription" "id" (Single (MString false)) ns_eadmap (u "@id");
  mkRow "eadmap.py" 500 "EncodedArchivalDescription" "eadid" (Single MNode) ns_eadmap (u "e:eadheader/e:eadid");
  mkRow "eadmap.py" 503 "EncodedArchivalDescription" "title" (Single MNode) ns_eadmap (u "e:eadheader/e:filedesc/e:titlestmt/e:titleproper");
  mkRow "eadmap.py" 505 "EncodedArchivalDescription" "author" (Single (MString false)) ns_eadmap (u "e:eadheader/e:filedesc/e:titlestmt/e:author");
  mkRow "eadmap.py" 507 "EncodedArchivalDescription" "unittitle" (Single MNode) ns_eadmap (u "e:archdesc[@level=""collection""]/e:did/e:unittitle");
  mkRow "eadmap.py" 509 "EncodedArchivalDescription" "physical_desc" (Single (MString false)) ns_eadmap (u "e:archdesc[@level=""collection""]/e:did/e:physdesc");
  mkRow "eadmap.py" 511 "EncodedArchivalDescription" "abstract" (Single MNode) ns_eadmap (u "e:archdesc[@level=""collection""]/e:did/e:abstract");
  mkRow "eadmap.py" 513 "EncodedArchivalDescription" "archdesc" (Single MNode) ns_eadmap (u "e:archdesc");
  mkRow "eadmap.py" 516 "EncodedArchivalDescription" "dsc" (Single MNode) ns_eadmap (u "e:archdesc/e:dsc");
  mkRow "eadmap.py" 518 "EncodedArchivalDescription" "file_desc" (Single MNode) ns_eadmap (u "e:eadheader/e:filedesc");
  mkRow "eadmap.py" 520 "EncodedArchivalDescription" "profiledesc" (Single MNode) ns_eadmap (u "e:eadheader/e:profiledesc")
].

(** the field declarations of eulxml/xmlmap/cerp.py *)
Definition rows_cerp : list row := [
  mkRow "cerp.py" 46 "Parameter" "name" (Single (MString false)) ns_cerp (u "xm:Name");
  mkRow "cerp.py" 47 "Parameter" "value" (Single (MString false)) ns_cerp (u "xm:Value");
  mkRow "cerp.py" 58 "Header" "name" (Single (MString false)) ns_cerp (u "xm:Name");
  mkRow "cerp.py" 59 "Header" "value" (Single (MString false)) ns_cerp (u "xm:Value");
  mkRow "cerp.py" 60 "Header" "comments" (Many (MString false)) ns_cerp (u "xm:Comments");
  mkRow "cerp.py" 71 "_BaseBody" "content_type_list" (Many (MString false)) ns_cerp (u "xm:ContentType");
  mkRow "cerp.py" 72 "_BaseBody" "charset_list" (Many (MString false)) ns_cerp (u "xm:Charset");
  mkRow "cerp.py" 73 "_BaseBody" "content_name_list" (Many (MString false)) ns_cerp (u "xm:ContentName");
  mkRow "cerp.py" 74 "_BaseBody" "content_type_comments_list" (Many (MString false)) ns_cerp (u "xm:ContentTypeComments");
  mkRow "cerp.py" 75 "_BaseBody" "content_type_param_list" (Many MNode) ns_cerp (u "xm:ContentTypeParam");
  mkRow "cerp.py" 76 "_BaseBody" "transfer_encoding_list" (Many (MString false)) ns_cerp (u "xm:TransferEncoding");
  mkRow "cerp.py" 77 "_BaseBody" "transfer_encoding_comments_list" (Many (MString false)) ns_cerp (u "xm:TransferEncodingComments");
  mkRow "cerp.py" 78 "_BaseBody" "content_id_list" (Many (MString false)) ns_cerp (u "xm:ContentId");
  mkRow "cerp.py" 79 "_BaseBody" "content_id_comments_list" (Many (MString false)) ns_cerp (u "xm:ContentIdComments");
  mkRow "cerp.py" 80 "_BaseBody" "description_list" (Many (MString false)) ns_cerp (u "xm:Description");
  mkRow "cerp.py" 81 "_BaseBody" "description_comments_list" (Many (MString false)) ns_cerp (u "xm:DescriptionComments");
  mkRow "cerp.py" 82 "_BaseBody" "disposition_list" (Many (MString false)) ns_cerp (u "xm:Disposition");
  mkRow "cerp.py" 83 "_BaseBody" "disposition_file_name_list" (Many (MString false)) ns_cerp (u "xm:DispositionFileName");
  mkRow "cerp.py" 84 "_BaseBody" "disposition_comments_list" (Many (MString false)) ns_cerp (u "xm:DispositionComments");
  mkRow "cerp.py" 86 "_BaseBody" "disposition_params" (Many MNode) ns_cerp (u "xm:DispositionParams");
  mkRow "cerp.py" 87 "_BaseBody" "other_mime_headers" (Many MNode) ns_cerp (u "xm:OtherMimeHeader");
  mkRow "cerp.py" 95 "Hash" "value" (Single (MString false)) ns_cerp (u "xm:Value");
  mkRow "cerp.py" 96 "Hash" "function" (Single (MString false)) ns_cerp (u "xm:Function");
  mkRow "cerp.py" 110 "_BaseExternal" "rel_path" (Single (MString false)) ns_cerp (u "xm:RelPath");
  mkRow "cerp.py" 111 "_BaseExternal" "eol" (Single (MString false)) ns_cerp (u "xm:Eol");
  mkRow "cerp.py" 112 "_BaseExternal" "hash" (Single MNode) ns_cerp (u "xm:Hash");
  mkRow "cerp.py" 117 "_BaseContent" "charset_list" (Many (MString false)) ns_cerp (u "xm:CharSet");
  mkRow "cerp.py" 118 "_BaseContent" "transfer_encoding_list" (Many (MString false)) ns_cerp (u "xm:TransferEncoding");
  mkRow "cerp.py" 127 "BodyContent" "content" (Single (MString false)) ns_cerp (u "xm:Content");
  mkRow "cerp.py" 132 "ExtBodyContent" "local_id" (Single MInt) ns_cerp (u "xm:LocalId");
  mkRow "cerp.py" 133 "ExtBodyContent" "xml_wrapped" (Single (MBool (u "1") (Some (u "0")))) ns_cerp (u "xm:XMLWrapped");
  mkRow "cerp.py" 140 "SingleBody" "body_content" (Single MNode) ns_cerp (u "xm:BodyContent");
  mkRow "cerp.py" 141 "SingleBody" "ext_body_content" (Single MNode) ns_cerp (u "xm:ExtBodyContent");
  mkRow "cerp.py" 142 "SingleBody" "child_message" (Single MNode) ns_cerp (u "xm:ChildMessage");
  mkRow "cerp.py" 149 "SingleBody" "phantom_body" (Single (MString false)) ns_cerp (u "xm:PhantomBody");
  mkRow "cerp.py" 154 "MultiBody" "preamble" (Single (MString false)) ns_cerp (u "xm:Preamble");
  mkRow "cerp.py" 155 "MultiBody" "epilogue" (Single (MString false)) ns_cerp (u "xm:Epilogue");
  mkRow "cerp.py" 157 "MultiBody" "single_body" (Single MNode) ns_cerp (u "xm:SingleBody");
  mkRow "cerp.py" 158 "MultiBody" "multi_body" (Single MNode) ns_cerp (u "xm:MultiBody");
  mkRow "cerp.py" 166 "Incomplete" "error_type" (Single (MString false)) ns_cerp (u "xm:ErrorType");
  mkRow "cerp.py" 167 "Incomplete" "error_location" (Single (MString false)) ns_cerp (u "xm:ErrorLocation");
  mkRow "cerp.py" 175 "_BaseMessage" "local_id" (Single MInt) ns_cerp (u "xm:LocalId");
  mkRow "cerp.py" 176 "_BaseMessage" "message_id" (Single (MString false)) ns_cerp (u "xm:MessageId");
  mkRow "cerp.py" 177 "_BaseMessage" "message_id_supplied" (Single (MBool (u "1") None)) ns_cerp (u "xm:MessageId/@Supplied");
  mkRow "cerp.py" 179 "_BaseMessage" "mime_version" (Single (MString false)) ns_cerp (u "xm:MimeVersion");
  mkRow "cerp.py" 180 "_BaseMessage" "orig_date_list" (Many (MString false)) ns_cerp (u "xm:OrigDate");
  mkRow "cerp.py" 184 "_BaseMessage" "from_list" (Many (MString false)) ns_cerp (u "xm:From");
  mkRow "cerp.py" 185 "_BaseMessage" "sender_list" (Many (MString false)) ns_cerp (u "xm:Sender");
  mkRow "cerp.py" 186 "_BaseMessage" "to_list" (Many (MString false)) ns_cerp (u "xm:To");
  mkRow "cerp.py" 187 "_BaseMessage" "cc_list" (Many (MString false)) ns_cerp (u "xm:Cc");
  mkRow "cerp.py" 188 "_BaseMessage" "bcc_list" (Many (MString false)) ns_cerp (u "xm:Bcc");
  mkRow "cerp.py" 189 "_BaseMessage" "in_reply_to_list" (Many (MString false)) ns_cerp (u "xm:InReplyTo");
  mkRow "cerp.py" 190 "_BaseMessage" "references_list" (Many (MString false)) ns_cerp (u "xm:References");
  mkRow "cerp.py" 191 "_BaseMessage" "subject_list" (Many (MString false)) ns_cerp (u "xm:Subject");
  mkRow "cerp.py" 192 "_BaseMessage" "comments_list" (Many (MString false)) ns_cerp (u "xm:Comments");
  mkRow "cerp.py" 193 "_BaseMessage" "keywords_list" (Many (MString false)) ns_cerp (u "xm:Keywords");
  mkRow "cerp.py" 194 "_BaseMessage" "headers" (Many MNode) ns_cerp (u "xm:Header");
  mkRow "cerp.py" 196 "_BaseMessage" "single_body" (Single MNode) ns_cerp (u "xm:SingleBody");
  mkRow "cerp.py" 197 "_BaseMessage" "multi_body" (Single MNode) ns_cerp (u "xm:MultiBody");
  mkRow "cerp.py" 202 "_BaseMessage" "incomplete_list" (Single MNode) ns_cerp (u "xm:Incomplete");
  mkRow "cerp.py" 215 "Message" "status_flags" (Many (MString false)) ns_cerp (u "xm:StatusFlag");
  mkRow "cerp.py" 340 "Folder" "name" (Single (MString false)) ns_cerp (u "xm:Name");
  mkRow "cerp.py" 341 "Folder" "messages" (Many MNode) ns_cerp (u "xm:Message");
  mkRow "cerp.py" 342 "Folder" "subfolders" (Many MNode) ns_cerp (u "xm:Folder");
  mkRow "cerp.py" 343 "Folder" "mboxes" (Many MNode) ns_cerp (u "xm:Mbox");
  mkRow "cerp.py" 354 "ReferencesAccount" "href" (Single (MString false)) ns_cerp (u "xm:Href");
  mkRow "cerp.py" 355 "ReferencesAccount" "email_address" (Single (MString false)) ns_cerp (u "xm:EmailAddress");
  mkRow "cerp.py" 356 "ReferencesAccount" "reference_type" (Single (MString false)) ns_cerp (u "xm:RefType");
  mkRow "cerp.py" 367 "Account" "email_address" (Single (MString false)) ns_cerp (u "xm:EmailAddress");
  mkRow "cerp.py" 368 "Account" "global_id" (Single (MString false)) ns_cerp (u "xm:GlobalId");
  mkRow "cerp.py" 369 "Account" "references_accounts" (Many MNode) ns_cerp (u "xm:ReferencesAccount");
  mkRow "cerp.py" 371 "Account" "folders" (Many MNode) ns_cerp (u "xm:Folder")
].

Definition shipped : list row := rows_mods ++ rows_dc ++ rows_premis ++ rows_teimap ++ rows_eadmap ++ rows_cerp.
