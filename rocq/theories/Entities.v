(** * Entities: the table of /repo/src/parser/html_entities.rs:8-2238.
    Generated by tools/gen_entities.py; entries that are commented out there are left
    out here. Keys with and without a semicolon; values are code points. *)
From Verif Require Import Base.

Definition entities : list (str * list N) := [
  (bs "Aacute;", [193%N]);
  (bs "Aacute", [193%N]);
  (bs "aacute;", [225%N]);
  (bs "aacute", [225%N]);
  (bs "Abreve;", [258%N]);
  (bs "abreve;", [259%N]);
  (bs "ac;", [8766%N]);
  (bs "acd;", [8767%N]);
  (bs "acE;", [8766%N; 819%N]);
  (bs "Acirc;", [194%N]);
  (bs "Acirc", [194%N]);
  (bs "acirc;", [226%N]);
  (bs "acirc", [226%N]);
  (bs "acute;", [180%N]);
  (bs "acute", [180%N]);
  (bs "Acy;", [1040%N]);
  (bs "acy;", [1072%N]);
  (bs "AElig;", [198%N]);
  (bs "AElig", [198%N]);
  (bs "aelig;", [230%N]);
  (bs "aelig", [230%N]);
  (bs "af;", [8289%N]);
  (bs "Agrave;", [192%N]);
  (bs "Agrave", [192%N]);
  (bs "agrave;", [224%N]);
  (bs "agrave", [224%N]);
  (bs "alefsym;", [8501%N]);
  (bs "aleph;", [8501%N]);
  (bs "Alpha;", [913%N]);
  (bs "alpha;", [945%N]);
  (bs "Amacr;", [256%N]);
  (bs "amacr;", [257%N]);
  (bs "amalg;", [10815%N]);
  (bs "AMP;", [38%N]);
  (bs "AMP", [38%N]);
  (bs "amp;", [38%N]);
  (bs "amp", [38%N]);
  (bs "And;", [10835%N]);
  (bs "and;", [8743%N]);
  (bs "andand;", [10837%N]);
  (bs "andd;", [10844%N]);
  (bs "andslope;", [10840%N]);
  (bs "andv;", [10842%N]);
  (bs "ang;", [8736%N]);
  (bs "ange;", [10660%N]);
  (bs "angle;", [8736%N]);
  (bs "angmsd;", [8737%N]);
  (bs "angmsdaa;", [10664%N]);
  (bs "angmsdab;", [10665%N]);
  (bs "angmsdac;", [10666%N]);
  (bs "angmsdad;", [10667%N]);
  (bs "angmsdae;", [10668%N]);
  (bs "angmsdaf;", [10669%N]);
  (bs "angmsdag;", [10670%N]);
  (bs "angmsdah;", [10671%N]);
  (bs "angrt;", [8735%N]);
  (bs "angrtvb;", [8894%N]);
  (bs "angrtvbd;", [10653%N]);
  (bs "angsph;", [8738%N]);
  (bs "angst;", [197%N]);
  (bs "angzarr;", [9084%N]);
  (bs "Aogon;", [260%N]);
  (bs "aogon;", [261%N]);
  (bs "ap;", [8776%N]);
  (bs "apacir;", [10863%N]);
  (bs "apE;", [10864%N]);
  (bs "ape;", [8778%N]);
  (bs "apid;", [8779%N]);
  (bs "apos;", [39%N]);
  (bs "ApplyFunction;", [8289%N]);
  (bs "approx;", [8776%N]);
  (bs "approxeq;", [8778%N]);
  (bs "Aring;", [197%N]);
  (bs "Aring", [197%N]);
  (bs "aring;", [229%N]);
  (bs "aring", [229%N]);
  (bs "Assign;", [8788%N]);
  (bs "ast;", [42%N]);
  (bs "asymp;", [8776%N]);
  (bs "asympeq;", [8781%N]);
  (bs "Atilde;", [195%N]);
  (bs "Atilde", [195%N]);
  (bs "atilde;", [227%N]);
  (bs "atilde", [227%N]);
  (bs "Auml;", [196%N]);
  (bs "Auml", [196%N]);
  (bs "auml;", [228%N]);
  (bs "auml", [228%N]);
  (bs "awconint;", [8755%N]);
  (bs "awint;", [10769%N]);
  (bs "backcong;", [8780%N]);
  (bs "backepsilon;", [1014%N]);
  (bs "backprime;", [8245%N]);
  (bs "backsim;", [8765%N]);
  (bs "backsimeq;", [8909%N]);
  (bs "Backslash;", [8726%N]);
  (bs "Barv;", [10983%N]);
  (bs "barvee;", [8893%N]);
  (bs "Barwed;", [8966%N]);
  (bs "barwed;", [8965%N]);
  (bs "barwedge;", [8965%N]);
  (bs "bbrk;", [9141%N]);
  (bs "bbrktbrk;", [9142%N]);
  (bs "bcong;", [8780%N]);
  (bs "Bcy;", [1041%N]);
  (bs "bcy;", [1073%N]);
  (bs "bdquo;", [8222%N]);
  (bs "becaus;", [8757%N]);
  (bs "Because;", [8757%N]);
  (bs "because;", [8757%N]);
  (bs "bemptyv;", [10672%N]);
  (bs "bepsi;", [1014%N]);
  (bs "bernou;", [8492%N]);
  (bs "Bernoullis;", [8492%N]);
  (bs "Beta;", [914%N]);
  (bs "beta;", [946%N]);
  (bs "beth;", [8502%N]);
  (bs "between;", [8812%N]);
  (bs "bigcap;", [8898%N]);
  (bs "bigcirc;", [9711%N]);
  (bs "bigcup;", [8899%N]);
  (bs "bigodot;", [10752%N]);
  (bs "bigoplus;", [10753%N]);
  (bs "bigotimes;", [10754%N]);
  (bs "bigsqcup;", [10758%N]);
  (bs "bigstar;", [9733%N]);
  (bs "bigtriangledown;", [9661%N]);
  (bs "bigtriangleup;", [9651%N]);
  (bs "biguplus;", [10756%N]);
  (bs "bigvee;", [8897%N]);
  (bs "bigwedge;", [8896%N]);
  (bs "bkarow;", [10509%N]);
  (bs "blacklozenge;", [10731%N]);
  (bs "blacksquare;", [9642%N]);
  (bs "blacktriangle;", [9652%N]);
  (bs "blacktriangledown;", [9662%N]);
  (bs "blacktriangleleft;", [9666%N]);
  (bs "blacktriangleright;", [9656%N]);
  (bs "blank;", [9251%N]);
  (bs "blk12;", [9618%N]);
  (bs "blk14;", [9617%N]);
  (bs "blk34;", [9619%N]);
  (bs "block;", [9608%N]);
  (bs "bne;", [61%N; 8421%N]);
  (bs "bnequiv;", [8801%N; 8421%N]);
  (bs "bNot;", [10989%N]);
  (bs "bnot;", [8976%N]);
  (bs "bot;", [8869%N]);
  (bs "bottom;", [8869%N]);
  (bs "bowtie;", [8904%N]);
  (bs "boxbox;", [10697%N]);
  (bs "boxDL;", [9559%N]);
  (bs "boxDl;", [9558%N]);
  (bs "boxdL;", [9557%N]);
  (bs "boxdl;", [9488%N]);
  (bs "boxDR;", [9556%N]);
  (bs "boxDr;", [9555%N]);
  (bs "boxdR;", [9554%N]);
  (bs "boxdr;", [9484%N]);
  (bs "boxH;", [9552%N]);
  (bs "boxh;", [9472%N]);
  (bs "boxHD;", [9574%N]);
  (bs "boxHd;", [9572%N]);
  (bs "boxhD;", [9573%N]);
  (bs "boxhd;", [9516%N]);
  (bs "boxHU;", [9577%N]);
  (bs "boxHu;", [9575%N]);
  (bs "boxhU;", [9576%N]);
  (bs "boxhu;", [9524%N]);
  (bs "boxminus;", [8863%N]);
  (bs "boxplus;", [8862%N]);
  (bs "boxtimes;", [8864%N]);
  (bs "boxUL;", [9565%N]);
  (bs "boxUl;", [9564%N]);
  (bs "boxuL;", [9563%N]);
  (bs "boxul;", [9496%N]);
  (bs "boxUR;", [9562%N]);
  (bs "boxUr;", [9561%N]);
  (bs "boxuR;", [9560%N]);
  (bs "boxur;", [9492%N]);
  (bs "boxV;", [9553%N]);
  (bs "boxv;", [9474%N]);
  (bs "boxVH;", [9580%N]);
  (bs "boxVh;", [9579%N]);
  (bs "boxvH;", [9578%N]);
  (bs "boxvh;", [9532%N]);
  (bs "boxVL;", [9571%N]);
  (bs "boxVl;", [9570%N]);
  (bs "boxvL;", [9569%N]);
  (bs "boxvl;", [9508%N]);
  (bs "boxVR;", [9568%N]);
  (bs "boxVr;", [9567%N]);
  (bs "boxvR;", [9566%N]);
  (bs "boxvr;", [9500%N]);
  (bs "bprime;", [8245%N]);
  (bs "Breve;", [728%N]);
  (bs "breve;", [728%N]);
  (bs "brvbar;", [166%N]);
  (bs "brvbar", [166%N]);
  (bs "Bscr;", [8492%N]);
  (bs "bsemi;", [8271%N]);
  (bs "bsim;", [8765%N]);
  (bs "bsime;", [8909%N]);
  (bs "bsol;", [92%N]);
  (bs "bsolb;", [10693%N]);
  (bs "bsolhsub;", [10184%N]);
  (bs "bull;", [8226%N]);
  (bs "bullet;", [8226%N]);
  (bs "bump;", [8782%N]);
  (bs "bumpE;", [10926%N]);
  (bs "bumpe;", [8783%N]);
  (bs "Bumpeq;", [8782%N]);
  (bs "bumpeq;", [8783%N]);
  (bs "Cacute;", [262%N]);
  (bs "cacute;", [263%N]);
  (bs "Cap;", [8914%N]);
  (bs "cap;", [8745%N]);
  (bs "capand;", [10820%N]);
  (bs "capbrcup;", [10825%N]);
  (bs "capcap;", [10827%N]);
  (bs "capcup;", [10823%N]);
  (bs "capdot;", [10816%N]);
  (bs "CapitalDifferentialD;", [8517%N]);
  (bs "caps;", [8745%N; 65024%N]);
  (bs "caret;", [8257%N]);
  (bs "caron;", [711%N]);
  (bs "Cayleys;", [8493%N]);
  (bs "ccaps;", [10829%N]);
  (bs "Ccaron;", [268%N]);
  (bs "ccaron;", [269%N]);
  (bs "Ccedil;", [199%N]);
  (bs "Ccedil", [199%N]);
  (bs "ccedil;", [231%N]);
  (bs "ccedil", [231%N]);
  (bs "Ccirc;", [264%N]);
  (bs "ccirc;", [265%N]);
  (bs "Cconint;", [8752%N]);
  (bs "ccups;", [10828%N]);
  (bs "ccupssm;", [10832%N]);
  (bs "Cdot;", [266%N]);
  (bs "cdot;", [267%N]);
  (bs "cedil;", [184%N]);
  (bs "cedil", [184%N]);
  (bs "Cedilla;", [184%N]);
  (bs "cemptyv;", [10674%N]);
  (bs "cent;", [162%N]);
  (bs "cent", [162%N]);
  (bs "CenterDot;", [183%N]);
  (bs "centerdot;", [183%N]);
  (bs "Cfr;", [8493%N]);
  (bs "CHcy;", [1063%N]);
  (bs "chcy;", [1095%N]);
  (bs "check;", [10003%N]);
  (bs "checkmark;", [10003%N]);
  (bs "Chi;", [935%N]);
  (bs "chi;", [967%N]);
  (bs "cir;", [9675%N]);
  (bs "circ;", [710%N]);
  (bs "circeq;", [8791%N]);
  (bs "circlearrowleft;", [8634%N]);
  (bs "circlearrowright;", [8635%N]);
  (bs "circledast;", [8859%N]);
  (bs "circledcirc;", [8858%N]);
  (bs "circleddash;", [8861%N]);
  (bs "CircleDot;", [8857%N]);
  (bs "circledR;", [174%N]);
  (bs "circledS;", [9416%N]);
  (bs "CircleMinus;", [8854%N]);
  (bs "CirclePlus;", [8853%N]);
  (bs "CircleTimes;", [8855%N]);
  (bs "cirE;", [10691%N]);
  (bs "cire;", [8791%N]);
  (bs "cirfnint;", [10768%N]);
  (bs "cirmid;", [10991%N]);
  (bs "cirscir;", [10690%N]);
  (bs "ClockwiseContourIntegral;", [8754%N]);
  (bs "CloseCurlyDoubleQuote;", [8221%N]);
  (bs "CloseCurlyQuote;", [8217%N]);
  (bs "clubs;", [9827%N]);
  (bs "clubsuit;", [9827%N]);
  (bs "Colon;", [8759%N]);
  (bs "colon;", [58%N]);
  (bs "Colone;", [10868%N]);
  (bs "colone;", [8788%N]);
  (bs "coloneq;", [8788%N]);
  (bs "comma;", [44%N]);
  (bs "commat;", [64%N]);
  (bs "comp;", [8705%N]);
  (bs "compfn;", [8728%N]);
  (bs "complement;", [8705%N]);
  (bs "complexes;", [8450%N]);
  (bs "cong;", [8773%N]);
  (bs "congdot;", [10861%N]);
  (bs "Congruent;", [8801%N]);
  (bs "Conint;", [8751%N]);
  (bs "conint;", [8750%N]);
  (bs "ContourIntegral;", [8750%N]);
  (bs "Copf;", [8450%N]);
  (bs "coprod;", [8720%N]);
  (bs "Coproduct;", [8720%N]);
  (bs "COPY;", [169%N]);
  (bs "COPY", [169%N]);
  (bs "copy;", [169%N]);
  (bs "copy", [169%N]);
  (bs "copysr;", [8471%N]);
  (bs "CounterClockwiseContourIntegral;", [8755%N]);
  (bs "crarr;", [8629%N]);
  (bs "Cross;", [10799%N]);
  (bs "cross;", [10007%N]);
  (bs "csub;", [10959%N]);
  (bs "csube;", [10961%N]);
  (bs "csup;", [10960%N]);
  (bs "csupe;", [10962%N]);
  (bs "ctdot;", [8943%N]);
  (bs "cudarrl;", [10552%N]);
  (bs "cudarrr;", [10549%N]);
  (bs "cuepr;", [8926%N]);
  (bs "cuesc;", [8927%N]);
  (bs "cularr;", [8630%N]);
  (bs "cularrp;", [10557%N]);
  (bs "Cup;", [8915%N]);
  (bs "cup;", [8746%N]);
  (bs "cupbrcap;", [10824%N]);
  (bs "CupCap;", [8781%N]);
  (bs "cupcap;", [10822%N]);
  (bs "cupcup;", [10826%N]);
  (bs "cupdot;", [8845%N]);
  (bs "cupor;", [10821%N]);
  (bs "curarr;", [8631%N]);
  (bs "curarrm;", [10556%N]);
  (bs "curlyeqprec;", [8926%N]);
  (bs "curlyeqsucc;", [8927%N]);
  (bs "curlyvee;", [8910%N]);
  (bs "curlywedge;", [8911%N]);
  (bs "curren;", [164%N]);
  (bs "curren", [164%N]);
  (bs "curvearrowleft;", [8630%N]);
  (bs "curvearrowright;", [8631%N]);
  (bs "cuvee;", [8910%N]);
  (bs "cuwed;", [8911%N]);
  (bs "cwconint;", [8754%N]);
  (bs "cwint;", [8753%N]);
  (bs "cylcty;", [9005%N]);
  (bs "Dagger;", [8225%N]);
  (bs "dagger;", [8224%N]);
  (bs "daleth;", [8504%N]);
  (bs "Darr;", [8609%N]);
  (bs "dArr;", [8659%N]);
  (bs "darr;", [8595%N]);
  (bs "dash;", [8208%N]);
  (bs "Dashv;", [10980%N]);
  (bs "dashv;", [8867%N]);
  (bs "dbkarow;", [10511%N]);
  (bs "dblac;", [733%N]);
  (bs "Dcaron;", [270%N]);
  (bs "dcaron;", [271%N]);
  (bs "Dcy;", [1044%N]);
  (bs "dcy;", [1076%N]);
  (bs "DD;", [8517%N]);
  (bs "dd;", [8518%N]);
  (bs "ddagger;", [8225%N]);
  (bs "ddarr;", [8650%N]);
  (bs "DDotrahd;", [10513%N]);
  (bs "ddotseq;", [10871%N]);
  (bs "deg;", [176%N]);
  (bs "deg", [176%N]);
  (bs "Del;", [8711%N]);
  (bs "Delta;", [916%N]);
  (bs "delta;", [948%N]);
  (bs "demptyv;", [10673%N]);
  (bs "dfisht;", [10623%N]);
  (bs "dHar;", [10597%N]);
  (bs "dharl;", [8643%N]);
  (bs "dharr;", [8642%N]);
  (bs "DiacriticalAcute;", [180%N]);
  (bs "DiacriticalDot;", [729%N]);
  (bs "DiacriticalDoubleAcute;", [733%N]);
  (bs "DiacriticalGrave;", [96%N]);
  (bs "DiacriticalTilde;", [732%N]);
  (bs "diam;", [8900%N]);
  (bs "Diamond;", [8900%N]);
  (bs "diamond;", [8900%N]);
  (bs "diamondsuit;", [9830%N]);
  (bs "diams;", [9830%N]);
  (bs "die;", [168%N]);
  (bs "DifferentialD;", [8518%N]);
  (bs "digamma;", [989%N]);
  (bs "disin;", [8946%N]);
  (bs "div;", [247%N]);
  (bs "divide;", [247%N]);
  (bs "divide", [247%N]);
  (bs "divideontimes;", [8903%N]);
  (bs "divonx;", [8903%N]);
  (bs "DJcy;", [1026%N]);
  (bs "djcy;", [1106%N]);
  (bs "dlcorn;", [8990%N]);
  (bs "dlcrop;", [8973%N]);
  (bs "dollar;", [36%N]);
  (bs "Dot;", [168%N]);
  (bs "dot;", [729%N]);
  (bs "DotDot;", [8412%N]);
  (bs "doteq;", [8784%N]);
  (bs "doteqdot;", [8785%N]);
  (bs "DotEqual;", [8784%N]);
  (bs "dotminus;", [8760%N]);
  (bs "dotplus;", [8724%N]);
  (bs "dotsquare;", [8865%N]);
  (bs "doublebarwedge;", [8966%N]);
  (bs "DoubleContourIntegral;", [8751%N]);
  (bs "DoubleDot;", [168%N]);
  (bs "DoubleDownArrow;", [8659%N]);
  (bs "DoubleLeftArrow;", [8656%N]);
  (bs "DoubleLeftRightArrow;", [8660%N]);
  (bs "DoubleLeftTee;", [10980%N]);
  (bs "DoubleLongLeftArrow;", [10232%N]);
  (bs "DoubleLongLeftRightArrow;", [10234%N]);
  (bs "DoubleLongRightArrow;", [10233%N]);
  (bs "DoubleRightArrow;", [8658%N]);
  (bs "DoubleRightTee;", [8872%N]);
  (bs "DoubleUpArrow;", [8657%N]);
  (bs "DoubleUpDownArrow;", [8661%N]);
  (bs "DoubleVerticalBar;", [8741%N]);
  (bs "DownArrow;", [8595%N]);
  (bs "Downarrow;", [8659%N]);
  (bs "downarrow;", [8595%N]);
  (bs "DownArrowBar;", [10515%N]);
  (bs "DownArrowUpArrow;", [8693%N]);
  (bs "DownBreve;", [785%N]);
  (bs "downdownarrows;", [8650%N]);
  (bs "downharpoonleft;", [8643%N]);
  (bs "downharpoonright;", [8642%N]);
  (bs "DownLeftRightVector;", [10576%N]);
  (bs "DownLeftTeeVector;", [10590%N]);
  (bs "DownLeftVector;", [8637%N]);
  (bs "DownLeftVectorBar;", [10582%N]);
  (bs "DownRightTeeVector;", [10591%N]);
  (bs "DownRightVector;", [8641%N]);
  (bs "DownRightVectorBar;", [10583%N]);
  (bs "DownTee;", [8868%N]);
  (bs "DownTeeArrow;", [8615%N]);
  (bs "drbkarow;", [10512%N]);
  (bs "drcorn;", [8991%N]);
  (bs "drcrop;", [8972%N]);
  (bs "DScy;", [1029%N]);
  (bs "dscy;", [1109%N]);
  (bs "dsol;", [10742%N]);
  (bs "Dstrok;", [272%N]);
  (bs "dstrok;", [273%N]);
  (bs "dtdot;", [8945%N]);
  (bs "dtri;", [9663%N]);
  (bs "dtrif;", [9662%N]);
  (bs "duarr;", [8693%N]);
  (bs "duhar;", [10607%N]);
  (bs "dwangle;", [10662%N]);
  (bs "DZcy;", [1039%N]);
  (bs "dzcy;", [1119%N]);
  (bs "dzigrarr;", [10239%N]);
  (bs "Eacute;", [201%N]);
  (bs "Eacute", [201%N]);
  (bs "eacute;", [233%N]);
  (bs "eacute", [233%N]);
  (bs "easter;", [10862%N]);
  (bs "Ecaron;", [282%N]);
  (bs "ecaron;", [283%N]);
  (bs "ecir;", [8790%N]);
  (bs "Ecirc;", [202%N]);
  (bs "Ecirc", [202%N]);
  (bs "ecirc;", [234%N]);
  (bs "ecirc", [234%N]);
  (bs "ecolon;", [8789%N]);
  (bs "Ecy;", [1069%N]);
  (bs "ecy;", [1101%N]);
  (bs "eDDot;", [10871%N]);
  (bs "Edot;", [278%N]);
  (bs "eDot;", [8785%N]);
  (bs "edot;", [279%N]);
  (bs "ee;", [8519%N]);
  (bs "efDot;", [8786%N]);
  (bs "eg;", [10906%N]);
  (bs "Egrave;", [200%N]);
  (bs "Egrave", [200%N]);
  (bs "egrave;", [232%N]);
  (bs "egrave", [232%N]);
  (bs "egs;", [10902%N]);
  (bs "egsdot;", [10904%N]);
  (bs "el;", [10905%N]);
  (bs "Element;", [8712%N]);
  (bs "elinters;", [9191%N]);
  (bs "ell;", [8467%N]);
  (bs "els;", [10901%N]);
  (bs "elsdot;", [10903%N]);
  (bs "Emacr;", [274%N]);
  (bs "emacr;", [275%N]);
  (bs "empty;", [8709%N]);
  (bs "emptyset;", [8709%N]);
  (bs "EmptySmallSquare;", [9723%N]);
  (bs "emptyv;", [8709%N]);
  (bs "EmptyVerySmallSquare;", [9643%N]);
  (bs "emsp;", [8195%N]);
  (bs "emsp13;", [8196%N]);
  (bs "emsp14;", [8197%N]);
  (bs "ENG;", [330%N]);
  (bs "eng;", [331%N]);
  (bs "ensp;", [8194%N]);
  (bs "Eogon;", [280%N]);
  (bs "eogon;", [281%N]);
  (bs "epar;", [8917%N]);
  (bs "eparsl;", [10723%N]);
  (bs "eplus;", [10865%N]);
  (bs "epsi;", [949%N]);
  (bs "Epsilon;", [917%N]);
  (bs "epsilon;", [949%N]);
  (bs "epsiv;", [1013%N]);
  (bs "eqcirc;", [8790%N]);
  (bs "eqcolon;", [8789%N]);
  (bs "eqsim;", [8770%N]);
  (bs "eqslantgtr;", [10902%N]);
  (bs "eqslantless;", [10901%N]);
  (bs "Equal;", [10869%N]);
  (bs "equals;", [61%N]);
  (bs "EqualTilde;", [8770%N]);
  (bs "equest;", [8799%N]);
  (bs "Equilibrium;", [8652%N]);
  (bs "equiv;", [8801%N]);
  (bs "equivDD;", [10872%N]);
  (bs "eqvparsl;", [10725%N]);
  (bs "erarr;", [10609%N]);
  (bs "erDot;", [8787%N]);
  (bs "Escr;", [8496%N]);
  (bs "escr;", [8495%N]);
  (bs "esdot;", [8784%N]);
  (bs "Esim;", [10867%N]);
  (bs "esim;", [8770%N]);
  (bs "Eta;", [919%N]);
  (bs "eta;", [951%N]);
  (bs "ETH;", [208%N]);
  (bs "ETH", [208%N]);
  (bs "eth;", [240%N]);
  (bs "eth", [240%N]);
  (bs "Euml;", [203%N]);
  (bs "Euml", [203%N]);
  (bs "euml;", [235%N]);
  (bs "euml", [235%N]);
  (bs "euro;", [8364%N]);
  (bs "excl;", [33%N]);
  (bs "exist;", [8707%N]);
  (bs "Exists;", [8707%N]);
  (bs "expectation;", [8496%N]);
  (bs "ExponentialE;", [8519%N]);
  (bs "exponentiale;", [8519%N]);
  (bs "fallingdotseq;", [8786%N]);
  (bs "Fcy;", [1060%N]);
  (bs "fcy;", [1092%N]);
  (bs "female;", [9792%N]);
  (bs "ffilig;", [64259%N]);
  (bs "fflig;", [64256%N]);
  (bs "ffllig;", [64260%N]);
  (bs "filig;", [64257%N]);
  (bs "FilledSmallSquare;", [9724%N]);
  (bs "FilledVerySmallSquare;", [9642%N]);
  (bs "fjlig;", [102%N; 106%N]);
  (bs "flat;", [9837%N]);
  (bs "fllig;", [64258%N]);
  (bs "fltns;", [9649%N]);
  (bs "fnof;", [402%N]);
  (bs "ForAll;", [8704%N]);
  (bs "forall;", [8704%N]);
  (bs "fork;", [8916%N]);
  (bs "forkv;", [10969%N]);
  (bs "Fouriertrf;", [8497%N]);
  (bs "fpartint;", [10765%N]);
  (bs "frac12;", [189%N]);
  (bs "frac12", [189%N]);
  (bs "frac13;", [8531%N]);
  (bs "frac14;", [188%N]);
  (bs "frac14", [188%N]);
  (bs "frac15;", [8533%N]);
  (bs "frac16;", [8537%N]);
  (bs "frac18;", [8539%N]);
  (bs "frac23;", [8532%N]);
  (bs "frac25;", [8534%N]);
  (bs "frac34;", [190%N]);
  (bs "frac34", [190%N]);
  (bs "frac35;", [8535%N]);
  (bs "frac38;", [8540%N]);
  (bs "frac45;", [8536%N]);
  (bs "frac56;", [8538%N]);
  (bs "frac58;", [8541%N]);
  (bs "frac78;", [8542%N]);
  (bs "frasl;", [8260%N]);
  (bs "frown;", [8994%N]);
  (bs "Fscr;", [8497%N]);
  (bs "gacute;", [501%N]);
  (bs "Gamma;", [915%N]);
  (bs "gamma;", [947%N]);
  (bs "Gammad;", [988%N]);
  (bs "gammad;", [989%N]);
  (bs "gap;", [10886%N]);
  (bs "Gbreve;", [286%N]);
  (bs "gbreve;", [287%N]);
  (bs "Gcedil;", [290%N]);
  (bs "Gcirc;", [284%N]);
  (bs "gcirc;", [285%N]);
  (bs "Gcy;", [1043%N]);
  (bs "gcy;", [1075%N]);
  (bs "Gdot;", [288%N]);
  (bs "gdot;", [289%N]);
  (bs "gE;", [8807%N]);
  (bs "ge;", [8805%N]);
  (bs "gEl;", [10892%N]);
  (bs "gel;", [8923%N]);
  (bs "geq;", [8805%N]);
  (bs "geqq;", [8807%N]);
  (bs "geqslant;", [10878%N]);
  (bs "ges;", [10878%N]);
  (bs "gescc;", [10921%N]);
  (bs "gesdot;", [10880%N]);
  (bs "gesdoto;", [10882%N]);
  (bs "gesdotol;", [10884%N]);
  (bs "gesl;", [8923%N; 65024%N]);
  (bs "gesles;", [10900%N]);
  (bs "Gg;", [8921%N]);
  (bs "gg;", [8811%N]);
  (bs "ggg;", [8921%N]);
  (bs "gimel;", [8503%N]);
  (bs "GJcy;", [1027%N]);
  (bs "gjcy;", [1107%N]);
  (bs "gl;", [8823%N]);
  (bs "gla;", [10917%N]);
  (bs "glE;", [10898%N]);
  (bs "glj;", [10916%N]);
  (bs "gnap;", [10890%N]);
  (bs "gnapprox;", [10890%N]);
  (bs "gnE;", [8809%N]);
  (bs "gne;", [10888%N]);
  (bs "gneq;", [10888%N]);
  (bs "gneqq;", [8809%N]);
  (bs "gnsim;", [8935%N]);
  (bs "grave;", [96%N]);
  (bs "GreaterEqual;", [8805%N]);
  (bs "GreaterEqualLess;", [8923%N]);
  (bs "GreaterFullEqual;", [8807%N]);
  (bs "GreaterGreater;", [10914%N]);
  (bs "GreaterLess;", [8823%N]);
  (bs "GreaterSlantEqual;", [10878%N]);
  (bs "GreaterTilde;", [8819%N]);
  (bs "gscr;", [8458%N]);
  (bs "gsim;", [8819%N]);
  (bs "gsime;", [10894%N]);
  (bs "gsiml;", [10896%N]);
  (bs "GT;", [62%N]);
  (bs "GT", [62%N]);
  (bs "Gt;", [8811%N]);
  (bs "gt;", [62%N]);
  (bs "gt", [62%N]);
  (bs "gtcc;", [10919%N]);
  (bs "gtcir;", [10874%N]);
  (bs "gtdot;", [8919%N]);
  (bs "gtlPar;", [10645%N]);
  (bs "gtquest;", [10876%N]);
  (bs "gtrapprox;", [10886%N]);
  (bs "gtrarr;", [10616%N]);
  (bs "gtrdot;", [8919%N]);
  (bs "gtreqless;", [8923%N]);
  (bs "gtreqqless;", [10892%N]);
  (bs "gtrless;", [8823%N]);
  (bs "gtrsim;", [8819%N]);
  (bs "gvertneqq;", [8809%N; 65024%N]);
  (bs "gvnE;", [8809%N; 65024%N]);
  (bs "Hacek;", [711%N]);
  (bs "hairsp;", [8202%N]);
  (bs "half;", [189%N]);
  (bs "hamilt;", [8459%N]);
  (bs "HARDcy;", [1066%N]);
  (bs "hardcy;", [1098%N]);
  (bs "hArr;", [8660%N]);
  (bs "harr;", [8596%N]);
  (bs "harrcir;", [10568%N]);
  (bs "harrw;", [8621%N]);
  (bs "Hat;", [94%N]);
  (bs "hbar;", [8463%N]);
  (bs "Hcirc;", [292%N]);
  (bs "hcirc;", [293%N]);
  (bs "hearts;", [9829%N]);
  (bs "heartsuit;", [9829%N]);
  (bs "hellip;", [8230%N]);
  (bs "hercon;", [8889%N]);
  (bs "Hfr;", [8460%N]);
  (bs "HilbertSpace;", [8459%N]);
  (bs "hksearow;", [10533%N]);
  (bs "hkswarow;", [10534%N]);
  (bs "hoarr;", [8703%N]);
  (bs "homtht;", [8763%N]);
  (bs "hookleftarrow;", [8617%N]);
  (bs "hookrightarrow;", [8618%N]);
  (bs "Hopf;", [8461%N]);
  (bs "horbar;", [8213%N]);
  (bs "HorizontalLine;", [9472%N]);
  (bs "Hscr;", [8459%N]);
  (bs "hslash;", [8463%N]);
  (bs "Hstrok;", [294%N]);
  (bs "hstrok;", [295%N]);
  (bs "HumpDownHump;", [8782%N]);
  (bs "HumpEqual;", [8783%N]);
  (bs "hybull;", [8259%N]);
  (bs "hyphen;", [8208%N]);
  (bs "Iacute;", [205%N]);
  (bs "Iacute", [205%N]);
  (bs "iacute;", [237%N]);
  (bs "iacute", [237%N]);
  (bs "ic;", [8291%N]);
  (bs "Icirc;", [206%N]);
  (bs "Icirc", [206%N]);
  (bs "icirc;", [238%N]);
  (bs "icirc", [238%N]);
  (bs "Icy;", [1048%N]);
  (bs "icy;", [1080%N]);
  (bs "Idot;", [304%N]);
  (bs "IEcy;", [1045%N]);
  (bs "iecy;", [1077%N]);
  (bs "iexcl;", [161%N]);
  (bs "iexcl", [161%N]);
  (bs "iff;", [8660%N]);
  (bs "Ifr;", [8465%N]);
  (bs "Igrave;", [204%N]);
  (bs "Igrave", [204%N]);
  (bs "igrave;", [236%N]);
  (bs "igrave", [236%N]);
  (bs "ii;", [8520%N]);
  (bs "iiiint;", [10764%N]);
  (bs "iiint;", [8749%N]);
  (bs "iinfin;", [10716%N]);
  (bs "iiota;", [8489%N]);
  (bs "IJlig;", [306%N]);
  (bs "ijlig;", [307%N]);
  (bs "Im;", [8465%N]);
  (bs "Imacr;", [298%N]);
  (bs "imacr;", [299%N]);
  (bs "image;", [8465%N]);
  (bs "ImaginaryI;", [8520%N]);
  (bs "imagline;", [8464%N]);
  (bs "imagpart;", [8465%N]);
  (bs "imath;", [305%N]);
  (bs "imof;", [8887%N]);
  (bs "imped;", [437%N]);
  (bs "Implies;", [8658%N]);
  (bs "in;", [8712%N]);
  (bs "incare;", [8453%N]);
  (bs "infin;", [8734%N]);
  (bs "infintie;", [10717%N]);
  (bs "inodot;", [305%N]);
  (bs "Int;", [8748%N]);
  (bs "int;", [8747%N]);
  (bs "intcal;", [8890%N]);
  (bs "integers;", [8484%N]);
  (bs "Integral;", [8747%N]);
  (bs "intercal;", [8890%N]);
  (bs "Intersection;", [8898%N]);
  (bs "intlarhk;", [10775%N]);
  (bs "intprod;", [10812%N]);
  (bs "InvisibleComma;", [8291%N]);
  (bs "InvisibleTimes;", [8290%N]);
  (bs "IOcy;", [1025%N]);
  (bs "iocy;", [1105%N]);
  (bs "Iogon;", [302%N]);
  (bs "iogon;", [303%N]);
  (bs "Iota;", [921%N]);
  (bs "iota;", [953%N]);
  (bs "iprod;", [10812%N]);
  (bs "iquest;", [191%N]);
  (bs "iquest", [191%N]);
  (bs "Iscr;", [8464%N]);
  (bs "isin;", [8712%N]);
  (bs "isindot;", [8949%N]);
  (bs "isinE;", [8953%N]);
  (bs "isins;", [8948%N]);
  (bs "isinsv;", [8947%N]);
  (bs "isinv;", [8712%N]);
  (bs "it;", [8290%N]);
  (bs "Itilde;", [296%N]);
  (bs "itilde;", [297%N]);
  (bs "Iukcy;", [1030%N]);
  (bs "iukcy;", [1110%N]);
  (bs "Iuml;", [207%N]);
  (bs "Iuml", [207%N]);
  (bs "iuml;", [239%N]);
  (bs "iuml", [239%N]);
  (bs "Jcirc;", [308%N]);
  (bs "jcirc;", [309%N]);
  (bs "Jcy;", [1049%N]);
  (bs "jcy;", [1081%N]);
  (bs "jmath;", [567%N]);
  (bs "Jsercy;", [1032%N]);
  (bs "jsercy;", [1112%N]);
  (bs "Jukcy;", [1028%N]);
  (bs "jukcy;", [1108%N]);
  (bs "Kappa;", [922%N]);
  (bs "kappa;", [954%N]);
  (bs "kappav;", [1008%N]);
  (bs "Kcedil;", [310%N]);
  (bs "kcedil;", [311%N]);
  (bs "Kcy;", [1050%N]);
  (bs "kcy;", [1082%N]);
  (bs "kgreen;", [312%N]);
  (bs "KHcy;", [1061%N]);
  (bs "khcy;", [1093%N]);
  (bs "KJcy;", [1036%N]);
  (bs "kjcy;", [1116%N]);
  (bs "lAarr;", [8666%N]);
  (bs "Lacute;", [313%N]);
  (bs "lacute;", [314%N]);
  (bs "laemptyv;", [10676%N]);
  (bs "lagran;", [8466%N]);
  (bs "Lambda;", [923%N]);
  (bs "lambda;", [955%N]);
  (bs "Lang;", [10218%N]);
  (bs "lang;", [10216%N]);
  (bs "langd;", [10641%N]);
  (bs "langle;", [10216%N]);
  (bs "lap;", [10885%N]);
  (bs "Laplacetrf;", [8466%N]);
  (bs "laquo;", [171%N]);
  (bs "laquo", [171%N]);
  (bs "Larr;", [8606%N]);
  (bs "lArr;", [8656%N]);
  (bs "larr;", [8592%N]);
  (bs "larrb;", [8676%N]);
  (bs "larrbfs;", [10527%N]);
  (bs "larrfs;", [10525%N]);
  (bs "larrhk;", [8617%N]);
  (bs "larrlp;", [8619%N]);
  (bs "larrpl;", [10553%N]);
  (bs "larrsim;", [10611%N]);
  (bs "larrtl;", [8610%N]);
  (bs "lat;", [10923%N]);
  (bs "lAtail;", [10523%N]);
  (bs "latail;", [10521%N]);
  (bs "late;", [10925%N]);
  (bs "lates;", [10925%N; 65024%N]);
  (bs "lBarr;", [10510%N]);
  (bs "lbarr;", [10508%N]);
  (bs "lbbrk;", [10098%N]);
  (bs "lbrace;", [123%N]);
  (bs "lbrack;", [91%N]);
  (bs "lbrke;", [10635%N]);
  (bs "lbrksld;", [10639%N]);
  (bs "lbrkslu;", [10637%N]);
  (bs "Lcaron;", [317%N]);
  (bs "lcaron;", [318%N]);
  (bs "Lcedil;", [315%N]);
  (bs "lcedil;", [316%N]);
  (bs "lceil;", [8968%N]);
  (bs "lcub;", [123%N]);
  (bs "Lcy;", [1051%N]);
  (bs "lcy;", [1083%N]);
  (bs "ldca;", [10550%N]);
  (bs "ldquo;", [8220%N]);
  (bs "ldquor;", [8222%N]);
  (bs "ldrdhar;", [10599%N]);
  (bs "ldrushar;", [10571%N]);
  (bs "ldsh;", [8626%N]);
  (bs "lE;", [8806%N]);
  (bs "le;", [8804%N]);
  (bs "LeftAngleBracket;", [10216%N]);
  (bs "LeftArrow;", [8592%N]);
  (bs "Leftarrow;", [8656%N]);
  (bs "leftarrow;", [8592%N]);
  (bs "LeftArrowBar;", [8676%N]);
  (bs "LeftArrowRightArrow;", [8646%N]);
  (bs "leftarrowtail;", [8610%N]);
  (bs "LeftCeiling;", [8968%N]);
  (bs "LeftDoubleBracket;", [10214%N]);
  (bs "LeftDownTeeVector;", [10593%N]);
  (bs "LeftDownVector;", [8643%N]);
  (bs "LeftDownVectorBar;", [10585%N]);
  (bs "LeftFloor;", [8970%N]);
  (bs "leftharpoondown;", [8637%N]);
  (bs "leftharpoonup;", [8636%N]);
  (bs "leftleftarrows;", [8647%N]);
  (bs "LeftRightArrow;", [8596%N]);
  (bs "Leftrightarrow;", [8660%N]);
  (bs "leftrightarrow;", [8596%N]);
  (bs "leftrightarrows;", [8646%N]);
  (bs "leftrightharpoons;", [8651%N]);
  (bs "leftrightsquigarrow;", [8621%N]);
  (bs "LeftRightVector;", [10574%N]);
  (bs "LeftTee;", [8867%N]);
  (bs "LeftTeeArrow;", [8612%N]);
  (bs "LeftTeeVector;", [10586%N]);
  (bs "leftthreetimes;", [8907%N]);
  (bs "LeftTriangle;", [8882%N]);
  (bs "LeftTriangleBar;", [10703%N]);
  (bs "LeftTriangleEqual;", [8884%N]);
  (bs "LeftUpDownVector;", [10577%N]);
  (bs "LeftUpTeeVector;", [10592%N]);
  (bs "LeftUpVector;", [8639%N]);
  (bs "LeftUpVectorBar;", [10584%N]);
  (bs "LeftVector;", [8636%N]);
  (bs "LeftVectorBar;", [10578%N]);
  (bs "lEg;", [10891%N]);
  (bs "leg;", [8922%N]);
  (bs "leq;", [8804%N]);
  (bs "leqq;", [8806%N]);
  (bs "leqslant;", [10877%N]);
  (bs "les;", [10877%N]);
  (bs "lescc;", [10920%N]);
  (bs "lesdot;", [10879%N]);
  (bs "lesdoto;", [10881%N]);
  (bs "lesdotor;", [10883%N]);
  (bs "lesg;", [8922%N; 65024%N]);
  (bs "lesges;", [10899%N]);
  (bs "lessapprox;", [10885%N]);
  (bs "lessdot;", [8918%N]);
  (bs "lesseqgtr;", [8922%N]);
  (bs "lesseqqgtr;", [10891%N]);
  (bs "LessEqualGreater;", [8922%N]);
  (bs "LessFullEqual;", [8806%N]);
  (bs "LessGreater;", [8822%N]);
  (bs "lessgtr;", [8822%N]);
  (bs "LessLess;", [10913%N]);
  (bs "lesssim;", [8818%N]);
  (bs "LessSlantEqual;", [10877%N]);
  (bs "LessTilde;", [8818%N]);
  (bs "lfisht;", [10620%N]);
  (bs "lfloor;", [8970%N]);
  (bs "lg;", [8822%N]);
  (bs "lgE;", [10897%N]);
  (bs "lHar;", [10594%N]);
  (bs "lhard;", [8637%N]);
  (bs "lharu;", [8636%N]);
  (bs "lharul;", [10602%N]);
  (bs "lhblk;", [9604%N]);
  (bs "LJcy;", [1033%N]);
  (bs "ljcy;", [1113%N]);
  (bs "Ll;", [8920%N]);
  (bs "ll;", [8810%N]);
  (bs "llarr;", [8647%N]);
  (bs "llcorner;", [8990%N]);
  (bs "Lleftarrow;", [8666%N]);
  (bs "llhard;", [10603%N]);
  (bs "lltri;", [9722%N]);
  (bs "Lmidot;", [319%N]);
  (bs "lmidot;", [320%N]);
  (bs "lmoust;", [9136%N]);
  (bs "lmoustache;", [9136%N]);
  (bs "lnap;", [10889%N]);
  (bs "lnapprox;", [10889%N]);
  (bs "lnE;", [8808%N]);
  (bs "lne;", [10887%N]);
  (bs "lneq;", [10887%N]);
  (bs "lneqq;", [8808%N]);
  (bs "lnsim;", [8934%N]);
  (bs "loang;", [10220%N]);
  (bs "loarr;", [8701%N]);
  (bs "lobrk;", [10214%N]);
  (bs "LongLeftArrow;", [10229%N]);
  (bs "Longleftarrow;", [10232%N]);
  (bs "longleftarrow;", [10229%N]);
  (bs "LongLeftRightArrow;", [10231%N]);
  (bs "Longleftrightarrow;", [10234%N]);
  (bs "longleftrightarrow;", [10231%N]);
  (bs "longmapsto;", [10236%N]);
  (bs "LongRightArrow;", [10230%N]);
  (bs "Longrightarrow;", [10233%N]);
  (bs "longrightarrow;", [10230%N]);
  (bs "looparrowleft;", [8619%N]);
  (bs "looparrowright;", [8620%N]);
  (bs "lopar;", [10629%N]);
  (bs "loplus;", [10797%N]);
  (bs "lotimes;", [10804%N]);
  (bs "lowast;", [8727%N]);
  (bs "lowbar;", [95%N]);
  (bs "LowerLeftArrow;", [8601%N]);
  (bs "LowerRightArrow;", [8600%N]);
  (bs "loz;", [9674%N]);
  (bs "lozenge;", [9674%N]);
  (bs "lozf;", [10731%N]);
  (bs "lpar;", [40%N]);
  (bs "lparlt;", [10643%N]);
  (bs "lrarr;", [8646%N]);
  (bs "lrcorner;", [8991%N]);
  (bs "lrhar;", [8651%N]);
  (bs "lrhard;", [10605%N]);
  (bs "lrm;", [8206%N]);
  (bs "lrtri;", [8895%N]);
  (bs "lsaquo;", [8249%N]);
  (bs "Lscr;", [8466%N]);
  (bs "Lsh;", [8624%N]);
  (bs "lsh;", [8624%N]);
  (bs "lsim;", [8818%N]);
  (bs "lsime;", [10893%N]);
  (bs "lsimg;", [10895%N]);
  (bs "lsqb;", [91%N]);
  (bs "lsquo;", [8216%N]);
  (bs "lsquor;", [8218%N]);
  (bs "Lstrok;", [321%N]);
  (bs "lstrok;", [322%N]);
  (bs "LT;", [60%N]);
  (bs "LT", [60%N]);
  (bs "Lt;", [8810%N]);
  (bs "lt;", [60%N]);
  (bs "lt", [60%N]);
  (bs "ltcc;", [10918%N]);
  (bs "ltcir;", [10873%N]);
  (bs "ltdot;", [8918%N]);
  (bs "lthree;", [8907%N]);
  (bs "ltimes;", [8905%N]);
  (bs "ltlarr;", [10614%N]);
  (bs "ltquest;", [10875%N]);
  (bs "ltri;", [9667%N]);
  (bs "ltrie;", [8884%N]);
  (bs "ltrif;", [9666%N]);
  (bs "ltrPar;", [10646%N]);
  (bs "lurdshar;", [10570%N]);
  (bs "luruhar;", [10598%N]);
  (bs "lvertneqq;", [8808%N; 65024%N]);
  (bs "lvnE;", [8808%N; 65024%N]);
  (bs "macr;", [175%N]);
  (bs "macr", [175%N]);
  (bs "male;", [9794%N]);
  (bs "malt;", [10016%N]);
  (bs "maltese;", [10016%N]);
  (bs "Map;", [10501%N]);
  (bs "map;", [8614%N]);
  (bs "mapsto;", [8614%N]);
  (bs "mapstodown;", [8615%N]);
  (bs "mapstoleft;", [8612%N]);
  (bs "mapstoup;", [8613%N]);
  (bs "marker;", [9646%N]);
  (bs "mcomma;", [10793%N]);
  (bs "Mcy;", [1052%N]);
  (bs "mcy;", [1084%N]);
  (bs "mdash;", [8212%N]);
  (bs "mDDot;", [8762%N]);
  (bs "measuredangle;", [8737%N]);
  (bs "MediumSpace;", [8287%N]);
  (bs "Mellintrf;", [8499%N]);
  (bs "mho;", [8487%N]);
  (bs "micro;", [181%N]);
  (bs "micro", [181%N]);
  (bs "mid;", [8739%N]);
  (bs "midast;", [42%N]);
  (bs "midcir;", [10992%N]);
  (bs "middot;", [183%N]);
  (bs "middot", [183%N]);
  (bs "minus;", [8722%N]);
  (bs "minusb;", [8863%N]);
  (bs "minusd;", [8760%N]);
  (bs "minusdu;", [10794%N]);
  (bs "MinusPlus;", [8723%N]);
  (bs "mlcp;", [10971%N]);
  (bs "mldr;", [8230%N]);
  (bs "mnplus;", [8723%N]);
  (bs "models;", [8871%N]);
  (bs "mp;", [8723%N]);
  (bs "Mscr;", [8499%N]);
  (bs "mstpos;", [8766%N]);
  (bs "Mu;", [924%N]);
  (bs "mu;", [956%N]);
  (bs "multimap;", [8888%N]);
  (bs "mumap;", [8888%N]);
  (bs "nabla;", [8711%N]);
  (bs "Nacute;", [323%N]);
  (bs "nacute;", [324%N]);
  (bs "nang;", [8736%N; 8402%N]);
  (bs "nap;", [8777%N]);
  (bs "napE;", [10864%N; 824%N]);
  (bs "napid;", [8779%N; 824%N]);
  (bs "napos;", [329%N]);
  (bs "napprox;", [8777%N]);
  (bs "natur;", [9838%N]);
  (bs "natural;", [9838%N]);
  (bs "naturals;", [8469%N]);
  (bs "nbsp;", [160%N]);
  (bs "nbump;", [8782%N; 824%N]);
  (bs "nbumpe;", [8783%N; 824%N]);
  (bs "ncap;", [10819%N]);
  (bs "Ncaron;", [327%N]);
  (bs "ncaron;", [328%N]);
  (bs "Ncedil;", [325%N]);
  (bs "ncedil;", [326%N]);
  (bs "ncong;", [8775%N]);
  (bs "ncongdot;", [10861%N; 824%N]);
  (bs "ncup;", [10818%N]);
  (bs "Ncy;", [1053%N]);
  (bs "ncy;", [1085%N]);
  (bs "ndash;", [8211%N]);
  (bs "ne;", [8800%N]);
  (bs "nearhk;", [10532%N]);
  (bs "neArr;", [8663%N]);
  (bs "nearr;", [8599%N]);
  (bs "nearrow;", [8599%N]);
  (bs "nedot;", [8784%N; 824%N]);
  (bs "NegativeMediumSpace;", [8203%N]);
  (bs "NegativeThickSpace;", [8203%N]);
  (bs "NegativeThinSpace;", [8203%N]);
  (bs "NegativeVeryThinSpace;", [8203%N]);
  (bs "nequiv;", [8802%N]);
  (bs "nesear;", [10536%N]);
  (bs "nesim;", [8770%N; 824%N]);
  (bs "NestedGreaterGreater;", [8811%N]);
  (bs "NestedLessLess;", [8810%N]);
  (bs "NewLine;", [10%N]);
  (bs "nexist;", [8708%N]);
  (bs "nexists;", [8708%N]);
  (bs "ngE;", [8807%N; 824%N]);
  (bs "nge;", [8817%N]);
  (bs "ngeq;", [8817%N]);
  (bs "ngeqq;", [8807%N; 824%N]);
  (bs "ngeqslant;", [10878%N; 824%N]);
  (bs "nges;", [10878%N; 824%N]);
  (bs "nGg;", [8921%N; 824%N]);
  (bs "ngsim;", [8821%N]);
  (bs "nGt;", [8811%N; 8402%N]);
  (bs "ngt;", [8815%N]);
  (bs "ngtr;", [8815%N]);
  (bs "nGtv;", [8811%N; 824%N]);
  (bs "nhArr;", [8654%N]);
  (bs "nharr;", [8622%N]);
  (bs "nhpar;", [10994%N]);
  (bs "ni;", [8715%N]);
  (bs "nis;", [8956%N]);
  (bs "nisd;", [8954%N]);
  (bs "niv;", [8715%N]);
  (bs "NJcy;", [1034%N]);
  (bs "njcy;", [1114%N]);
  (bs "nlArr;", [8653%N]);
  (bs "nlarr;", [8602%N]);
  (bs "nldr;", [8229%N]);
  (bs "nlE;", [8806%N; 824%N]);
  (bs "nle;", [8816%N]);
  (bs "nLeftarrow;", [8653%N]);
  (bs "nleftarrow;", [8602%N]);
  (bs "nLeftrightarrow;", [8654%N]);
  (bs "nleftrightarrow;", [8622%N]);
  (bs "nleq;", [8816%N]);
  (bs "nleqq;", [8806%N; 824%N]);
  (bs "nleqslant;", [10877%N; 824%N]);
  (bs "nles;", [10877%N; 824%N]);
  (bs "nless;", [8814%N]);
  (bs "nLl;", [8920%N; 824%N]);
  (bs "nlsim;", [8820%N]);
  (bs "nLt;", [8810%N; 8402%N]);
  (bs "nlt;", [8814%N]);
  (bs "nltri;", [8938%N]);
  (bs "nltrie;", [8940%N]);
  (bs "nLtv;", [8810%N; 824%N]);
  (bs "nmid;", [8740%N]);
  (bs "NoBreak;", [8288%N]);
  (bs "NonBreakingSpace;", [160%N]);
  (bs "Nopf;", [8469%N]);
  (bs "Not;", [10988%N]);
  (bs "not;", [172%N]);
  (bs "not", [172%N]);
  (bs "NotCongruent;", [8802%N]);
  (bs "NotCupCap;", [8813%N]);
  (bs "NotDoubleVerticalBar;", [8742%N]);
  (bs "NotElement;", [8713%N]);
  (bs "NotEqual;", [8800%N]);
  (bs "NotEqualTilde;", [8770%N; 824%N]);
  (bs "NotExists;", [8708%N]);
  (bs "NotGreater;", [8815%N]);
  (bs "NotGreaterEqual;", [8817%N]);
  (bs "NotGreaterFullEqual;", [8807%N; 824%N]);
  (bs "NotGreaterGreater;", [8811%N; 824%N]);
  (bs "NotGreaterLess;", [8825%N]);
  (bs "NotGreaterSlantEqual;", [10878%N; 824%N]);
  (bs "NotGreaterTilde;", [8821%N]);
  (bs "NotHumpDownHump;", [8782%N; 824%N]);
  (bs "NotHumpEqual;", [8783%N; 824%N]);
  (bs "notin;", [8713%N]);
  (bs "notindot;", [8949%N; 824%N]);
  (bs "notinE;", [8953%N; 824%N]);
  (bs "notinva;", [8713%N]);
  (bs "notinvb;", [8951%N]);
  (bs "notinvc;", [8950%N]);
  (bs "NotLeftTriangle;", [8938%N]);
  (bs "NotLeftTriangleBar;", [10703%N; 824%N]);
  (bs "NotLeftTriangleEqual;", [8940%N]);
  (bs "NotLess;", [8814%N]);
  (bs "NotLessEqual;", [8816%N]);
  (bs "NotLessGreater;", [8824%N]);
  (bs "NotLessLess;", [8810%N; 824%N]);
  (bs "NotLessSlantEqual;", [10877%N; 824%N]);
  (bs "NotLessTilde;", [8820%N]);
  (bs "NotNestedGreaterGreater;", [10914%N; 824%N]);
  (bs "NotNestedLessLess;", [10913%N; 824%N]);
  (bs "notni;", [8716%N]);
  (bs "notniva;", [8716%N]);
  (bs "notnivb;", [8958%N]);
  (bs "notnivc;", [8957%N]);
  (bs "NotPrecedes;", [8832%N]);
  (bs "NotPrecedesEqual;", [10927%N; 824%N]);
  (bs "NotPrecedesSlantEqual;", [8928%N]);
  (bs "NotReverseElement;", [8716%N]);
  (bs "NotRightTriangle;", [8939%N]);
  (bs "NotRightTriangleBar;", [10704%N; 824%N]);
  (bs "NotRightTriangleEqual;", [8941%N]);
  (bs "NotSquareSubset;", [8847%N; 824%N]);
  (bs "NotSquareSubsetEqual;", [8930%N]);
  (bs "NotSquareSuperset;", [8848%N; 824%N]);
  (bs "NotSquareSupersetEqual;", [8931%N]);
  (bs "NotSubset;", [8834%N; 8402%N]);
  (bs "NotSubsetEqual;", [8840%N]);
  (bs "NotSucceeds;", [8833%N]);
  (bs "NotSucceedsEqual;", [10928%N; 824%N]);
  (bs "NotSucceedsSlantEqual;", [8929%N]);
  (bs "NotSucceedsTilde;", [8831%N; 824%N]);
  (bs "NotSuperset;", [8835%N; 8402%N]);
  (bs "NotSupersetEqual;", [8841%N]);
  (bs "NotTilde;", [8769%N]);
  (bs "NotTildeEqual;", [8772%N]);
  (bs "NotTildeFullEqual;", [8775%N]);
  (bs "NotTildeTilde;", [8777%N]);
  (bs "NotVerticalBar;", [8740%N]);
  (bs "npar;", [8742%N]);
  (bs "nparallel;", [8742%N]);
  (bs "nparsl;", [11005%N; 8421%N]);
  (bs "npart;", [8706%N; 824%N]);
  (bs "npolint;", [10772%N]);
  (bs "npr;", [8832%N]);
  (bs "nprcue;", [8928%N]);
  (bs "npre;", [10927%N; 824%N]);
  (bs "nprec;", [8832%N]);
  (bs "npreceq;", [10927%N; 824%N]);
  (bs "nrArr;", [8655%N]);
  (bs "nrarr;", [8603%N]);
  (bs "nrarrc;", [10547%N; 824%N]);
  (bs "nrarrw;", [8605%N; 824%N]);
  (bs "nRightarrow;", [8655%N]);
  (bs "nrightarrow;", [8603%N]);
  (bs "nrtri;", [8939%N]);
  (bs "nrtrie;", [8941%N]);
  (bs "nsc;", [8833%N]);
  (bs "nsccue;", [8929%N]);
  (bs "nsce;", [10928%N; 824%N]);
  (bs "nshortmid;", [8740%N]);
  (bs "nshortparallel;", [8742%N]);
  (bs "nsim;", [8769%N]);
  (bs "nsime;", [8772%N]);
  (bs "nsimeq;", [8772%N]);
  (bs "nsmid;", [8740%N]);
  (bs "nspar;", [8742%N]);
  (bs "nsqsube;", [8930%N]);
  (bs "nsqsupe;", [8931%N]);
  (bs "nsub;", [8836%N]);
  (bs "nsubE;", [10949%N; 824%N]);
  (bs "nsube;", [8840%N]);
  (bs "nsubset;", [8834%N; 8402%N]);
  (bs "nsubseteq;", [8840%N]);
  (bs "nsubseteqq;", [10949%N; 824%N]);
  (bs "nsucc;", [8833%N]);
  (bs "nsucceq;", [10928%N; 824%N]);
  (bs "nsup;", [8837%N]);
  (bs "nsupE;", [10950%N; 824%N]);
  (bs "nsupe;", [8841%N]);
  (bs "nsupset;", [8835%N; 8402%N]);
  (bs "nsupseteq;", [8841%N]);
  (bs "nsupseteqq;", [10950%N; 824%N]);
  (bs "ntgl;", [8825%N]);
  (bs "Ntilde;", [209%N]);
  (bs "Ntilde", [209%N]);
  (bs "ntilde;", [241%N]);
  (bs "ntilde", [241%N]);
  (bs "ntlg;", [8824%N]);
  (bs "ntriangleleft;", [8938%N]);
  (bs "ntrianglelefteq;", [8940%N]);
  (bs "ntriangleright;", [8939%N]);
  (bs "ntrianglerighteq;", [8941%N]);
  (bs "Nu;", [925%N]);
  (bs "nu;", [957%N]);
  (bs "num;", [35%N]);
  (bs "numero;", [8470%N]);
  (bs "numsp;", [8199%N]);
  (bs "nvap;", [8781%N; 8402%N]);
  (bs "nVDash;", [8879%N]);
  (bs "nVdash;", [8878%N]);
  (bs "nvDash;", [8877%N]);
  (bs "nvdash;", [8876%N]);
  (bs "nvge;", [8805%N; 8402%N]);
  (bs "nvgt;", [62%N; 8402%N]);
  (bs "nvHarr;", [10500%N]);
  (bs "nvinfin;", [10718%N]);
  (bs "nvlArr;", [10498%N]);
  (bs "nvle;", [8804%N; 8402%N]);
  (bs "nvlt;", [60%N; 8402%N]);
  (bs "nvltrie;", [8884%N; 8402%N]);
  (bs "nvrArr;", [10499%N]);
  (bs "nvrtrie;", [8885%N; 8402%N]);
  (bs "nvsim;", [8764%N; 8402%N]);
  (bs "nwarhk;", [10531%N]);
  (bs "nwArr;", [8662%N]);
  (bs "nwarr;", [8598%N]);
  (bs "nwarrow;", [8598%N]);
  (bs "nwnear;", [10535%N]);
  (bs "Oacute;", [211%N]);
  (bs "Oacute", [211%N]);
  (bs "oacute;", [243%N]);
  (bs "oacute", [243%N]);
  (bs "oast;", [8859%N]);
  (bs "ocir;", [8858%N]);
  (bs "Ocirc;", [212%N]);
  (bs "Ocirc", [212%N]);
  (bs "ocirc;", [244%N]);
  (bs "ocirc", [244%N]);
  (bs "Ocy;", [1054%N]);
  (bs "ocy;", [1086%N]);
  (bs "odash;", [8861%N]);
  (bs "Odblac;", [336%N]);
  (bs "odblac;", [337%N]);
  (bs "odiv;", [10808%N]);
  (bs "odot;", [8857%N]);
  (bs "odsold;", [10684%N]);
  (bs "OElig;", [338%N]);
  (bs "oelig;", [339%N]);
  (bs "ofcir;", [10687%N]);
  (bs "ogon;", [731%N]);
  (bs "Ograve;", [210%N]);
  (bs "Ograve", [210%N]);
  (bs "ograve;", [242%N]);
  (bs "ograve", [242%N]);
  (bs "ogt;", [10689%N]);
  (bs "ohbar;", [10677%N]);
  (bs "ohm;", [937%N]);
  (bs "oint;", [8750%N]);
  (bs "olarr;", [8634%N]);
  (bs "olcir;", [10686%N]);
  (bs "olcross;", [10683%N]);
  (bs "oline;", [8254%N]);
  (bs "olt;", [10688%N]);
  (bs "Omacr;", [332%N]);
  (bs "omacr;", [333%N]);
  (bs "Omega;", [937%N]);
  (bs "omega;", [969%N]);
  (bs "Omicron;", [927%N]);
  (bs "omicron;", [959%N]);
  (bs "omid;", [10678%N]);
  (bs "ominus;", [8854%N]);
  (bs "opar;", [10679%N]);
  (bs "OpenCurlyDoubleQuote;", [8220%N]);
  (bs "OpenCurlyQuote;", [8216%N]);
  (bs "operp;", [10681%N]);
  (bs "oplus;", [8853%N]);
  (bs "Or;", [10836%N]);
  (bs "or;", [8744%N]);
  (bs "orarr;", [8635%N]);
  (bs "ord;", [10845%N]);
  (bs "order;", [8500%N]);
  (bs "orderof;", [8500%N]);
  (bs "ordf;", [170%N]);
  (bs "ordf", [170%N]);
  (bs "ordm;", [186%N]);
  (bs "ordm", [186%N]);
  (bs "origof;", [8886%N]);
  (bs "oror;", [10838%N]);
  (bs "orslope;", [10839%N]);
  (bs "orv;", [10843%N]);
  (bs "oS;", [9416%N]);
  (bs "oscr;", [8500%N]);
  (bs "Oslash;", [216%N]);
  (bs "Oslash", [216%N]);
  (bs "oslash;", [248%N]);
  (bs "oslash", [248%N]);
  (bs "osol;", [8856%N]);
  (bs "Otilde;", [213%N]);
  (bs "Otilde", [213%N]);
  (bs "otilde;", [245%N]);
  (bs "otilde", [245%N]);
  (bs "Otimes;", [10807%N]);
  (bs "otimes;", [8855%N]);
  (bs "otimesas;", [10806%N]);
  (bs "Ouml;", [214%N]);
  (bs "Ouml", [214%N]);
  (bs "ouml;", [246%N]);
  (bs "ouml", [246%N]);
  (bs "ovbar;", [9021%N]);
  (bs "OverBar;", [8254%N]);
  (bs "OverBrace;", [9182%N]);
  (bs "OverBracket;", [9140%N]);
  (bs "OverParenthesis;", [9180%N]);
  (bs "par;", [8741%N]);
  (bs "para;", [182%N]);
  (bs "para", [182%N]);
  (bs "parallel;", [8741%N]);
  (bs "parsim;", [10995%N]);
  (bs "parsl;", [11005%N]);
  (bs "part;", [8706%N]);
  (bs "PartialD;", [8706%N]);
  (bs "Pcy;", [1055%N]);
  (bs "pcy;", [1087%N]);
  (bs "percnt;", [37%N]);
  (bs "period;", [46%N]);
  (bs "permil;", [8240%N]);
  (bs "perp;", [8869%N]);
  (bs "pertenk;", [8241%N]);
  (bs "Phi;", [934%N]);
  (bs "phi;", [966%N]);
  (bs "phiv;", [981%N]);
  (bs "phmmat;", [8499%N]);
  (bs "phone;", [9742%N]);
  (bs "Pi;", [928%N]);
  (bs "pi;", [960%N]);
  (bs "pitchfork;", [8916%N]);
  (bs "piv;", [982%N]);
  (bs "planck;", [8463%N]);
  (bs "planckh;", [8462%N]);
  (bs "plankv;", [8463%N]);
  (bs "plus;", [43%N]);
  (bs "plusacir;", [10787%N]);
  (bs "plusb;", [8862%N]);
  (bs "pluscir;", [10786%N]);
  (bs "plusdo;", [8724%N]);
  (bs "plusdu;", [10789%N]);
  (bs "pluse;", [10866%N]);
  (bs "PlusMinus;", [177%N]);
  (bs "plusmn;", [177%N]);
  (bs "plusmn", [177%N]);
  (bs "plussim;", [10790%N]);
  (bs "plustwo;", [10791%N]);
  (bs "pm;", [177%N]);
  (bs "Poincareplane;", [8460%N]);
  (bs "pointint;", [10773%N]);
  (bs "Popf;", [8473%N]);
  (bs "pound;", [163%N]);
  (bs "pound", [163%N]);
  (bs "Pr;", [10939%N]);
  (bs "pr;", [8826%N]);
  (bs "prap;", [10935%N]);
  (bs "prcue;", [8828%N]);
  (bs "prE;", [10931%N]);
  (bs "pre;", [10927%N]);
  (bs "prec;", [8826%N]);
  (bs "precapprox;", [10935%N]);
  (bs "preccurlyeq;", [8828%N]);
  (bs "Precedes;", [8826%N]);
  (bs "PrecedesEqual;", [10927%N]);
  (bs "PrecedesSlantEqual;", [8828%N]);
  (bs "PrecedesTilde;", [8830%N]);
  (bs "preceq;", [10927%N]);
  (bs "precnapprox;", [10937%N]);
  (bs "precneqq;", [10933%N]);
  (bs "precnsim;", [8936%N]);
  (bs "precsim;", [8830%N]);
  (bs "Prime;", [8243%N]);
  (bs "prime;", [8242%N]);
  (bs "primes;", [8473%N]);
  (bs "prnap;", [10937%N]);
  (bs "prnE;", [10933%N]);
  (bs "prnsim;", [8936%N]);
  (bs "prod;", [8719%N]);
  (bs "Product;", [8719%N]);
  (bs "profalar;", [9006%N]);
  (bs "profline;", [8978%N]);
  (bs "profsurf;", [8979%N]);
  (bs "prop;", [8733%N]);
  (bs "Proportion;", [8759%N]);
  (bs "Proportional;", [8733%N]);
  (bs "propto;", [8733%N]);
  (bs "prsim;", [8830%N]);
  (bs "prurel;", [8880%N]);
  (bs "Psi;", [936%N]);
  (bs "psi;", [968%N]);
  (bs "puncsp;", [8200%N]);
  (bs "qint;", [10764%N]);
  (bs "Qopf;", [8474%N]);
  (bs "qprime;", [8279%N]);
  (bs "quaternions;", [8461%N]);
  (bs "quatint;", [10774%N]);
  (bs "quest;", [63%N]);
  (bs "questeq;", [8799%N]);
  (bs "QUOT;", [34%N]);
  (bs "QUOT", [34%N]);
  (bs "quot;", [34%N]);
  (bs "quot", [34%N]);
  (bs "rAarr;", [8667%N]);
  (bs "race;", [8765%N; 817%N]);
  (bs "Racute;", [340%N]);
  (bs "racute;", [341%N]);
  (bs "radic;", [8730%N]);
  (bs "raemptyv;", [10675%N]);
  (bs "Rang;", [10219%N]);
  (bs "rang;", [10217%N]);
  (bs "rangd;", [10642%N]);
  (bs "range;", [10661%N]);
  (bs "rangle;", [10217%N]);
  (bs "raquo;", [187%N]);
  (bs "raquo", [187%N]);
  (bs "Rarr;", [8608%N]);
  (bs "rArr;", [8658%N]);
  (bs "rarr;", [8594%N]);
  (bs "rarrap;", [10613%N]);
  (bs "rarrb;", [8677%N]);
  (bs "rarrbfs;", [10528%N]);
  (bs "rarrc;", [10547%N]);
  (bs "rarrfs;", [10526%N]);
  (bs "rarrhk;", [8618%N]);
  (bs "rarrlp;", [8620%N]);
  (bs "rarrpl;", [10565%N]);
  (bs "rarrsim;", [10612%N]);
  (bs "Rarrtl;", [10518%N]);
  (bs "rarrtl;", [8611%N]);
  (bs "rarrw;", [8605%N]);
  (bs "rAtail;", [10524%N]);
  (bs "ratail;", [10522%N]);
  (bs "ratio;", [8758%N]);
  (bs "rationals;", [8474%N]);
  (bs "RBarr;", [10512%N]);
  (bs "rBarr;", [10511%N]);
  (bs "rbarr;", [10509%N]);
  (bs "rbbrk;", [10099%N]);
  (bs "rbrace;", [125%N]);
  (bs "rbrack;", [93%N]);
  (bs "rbrke;", [10636%N]);
  (bs "rbrksld;", [10638%N]);
  (bs "rbrkslu;", [10640%N]);
  (bs "Rcaron;", [344%N]);
  (bs "rcaron;", [345%N]);
  (bs "Rcedil;", [342%N]);
  (bs "rcedil;", [343%N]);
  (bs "rceil;", [8969%N]);
  (bs "rcub;", [125%N]);
  (bs "Rcy;", [1056%N]);
  (bs "rcy;", [1088%N]);
  (bs "rdca;", [10551%N]);
  (bs "rdldhar;", [10601%N]);
  (bs "rdquo;", [8221%N]);
  (bs "rdquor;", [8221%N]);
  (bs "rdsh;", [8627%N]);
  (bs "Re;", [8476%N]);
  (bs "real;", [8476%N]);
  (bs "realine;", [8475%N]);
  (bs "realpart;", [8476%N]);
  (bs "reals;", [8477%N]);
  (bs "rect;", [9645%N]);
  (bs "REG;", [174%N]);
  (bs "REG", [174%N]);
  (bs "reg;", [174%N]);
  (bs "reg", [174%N]);
  (bs "ReverseElement;", [8715%N]);
  (bs "ReverseEquilibrium;", [8651%N]);
  (bs "ReverseUpEquilibrium;", [10607%N]);
  (bs "rfisht;", [10621%N]);
  (bs "rfloor;", [8971%N]);
  (bs "Rfr;", [8476%N]);
  (bs "rHar;", [10596%N]);
  (bs "rhard;", [8641%N]);
  (bs "rharu;", [8640%N]);
  (bs "rharul;", [10604%N]);
  (bs "Rho;", [929%N]);
  (bs "rho;", [961%N]);
  (bs "rhov;", [1009%N]);
  (bs "RightAngleBracket;", [10217%N]);
  (bs "RightArrow;", [8594%N]);
  (bs "Rightarrow;", [8658%N]);
  (bs "rightarrow;", [8594%N]);
  (bs "RightArrowBar;", [8677%N]);
  (bs "RightArrowLeftArrow;", [8644%N]);
  (bs "rightarrowtail;", [8611%N]);
  (bs "RightCeiling;", [8969%N]);
  (bs "RightDoubleBracket;", [10215%N]);
  (bs "RightDownTeeVector;", [10589%N]);
  (bs "RightDownVector;", [8642%N]);
  (bs "RightDownVectorBar;", [10581%N]);
  (bs "RightFloor;", [8971%N]);
  (bs "rightharpoondown;", [8641%N]);
  (bs "rightharpoonup;", [8640%N]);
  (bs "rightleftarrows;", [8644%N]);
  (bs "rightleftharpoons;", [8652%N]);
  (bs "rightrightarrows;", [8649%N]);
  (bs "rightsquigarrow;", [8605%N]);
  (bs "RightTee;", [8866%N]);
  (bs "RightTeeArrow;", [8614%N]);
  (bs "RightTeeVector;", [10587%N]);
  (bs "rightthreetimes;", [8908%N]);
  (bs "RightTriangle;", [8883%N]);
  (bs "RightTriangleBar;", [10704%N]);
  (bs "RightTriangleEqual;", [8885%N]);
  (bs "RightUpDownVector;", [10575%N]);
  (bs "RightUpTeeVector;", [10588%N]);
  (bs "RightUpVector;", [8638%N]);
  (bs "RightUpVectorBar;", [10580%N]);
  (bs "RightVector;", [8640%N]);
  (bs "RightVectorBar;", [10579%N]);
  (bs "ring;", [730%N]);
  (bs "risingdotseq;", [8787%N]);
  (bs "rlarr;", [8644%N]);
  (bs "rlhar;", [8652%N]);
  (bs "rlm;", [8207%N]);
  (bs "rmoust;", [9137%N]);
  (bs "rmoustache;", [9137%N]);
  (bs "rnmid;", [10990%N]);
  (bs "roang;", [10221%N]);
  (bs "roarr;", [8702%N]);
  (bs "robrk;", [10215%N]);
  (bs "ropar;", [10630%N]);
  (bs "Ropf;", [8477%N]);
  (bs "roplus;", [10798%N]);
  (bs "rotimes;", [10805%N]);
  (bs "RoundImplies;", [10608%N]);
  (bs "rpar;", [41%N]);
  (bs "rpargt;", [10644%N]);
  (bs "rppolint;", [10770%N]);
  (bs "rrarr;", [8649%N]);
  (bs "Rrightarrow;", [8667%N]);
  (bs "rsaquo;", [8250%N]);
  (bs "Rscr;", [8475%N]);
  (bs "Rsh;", [8625%N]);
  (bs "rsh;", [8625%N]);
  (bs "rsqb;", [93%N]);
  (bs "rsquo;", [8217%N]);
  (bs "rsquor;", [8217%N]);
  (bs "rthree;", [8908%N]);
  (bs "rtimes;", [8906%N]);
  (bs "rtri;", [9657%N]);
  (bs "rtrie;", [8885%N]);
  (bs "rtrif;", [9656%N]);
  (bs "rtriltri;", [10702%N]);
  (bs "RuleDelayed;", [10740%N]);
  (bs "ruluhar;", [10600%N]);
  (bs "rx;", [8478%N]);
  (bs "Sacute;", [346%N]);
  (bs "sacute;", [347%N]);
  (bs "sbquo;", [8218%N]);
  (bs "Sc;", [10940%N]);
  (bs "sc;", [8827%N]);
  (bs "scap;", [10936%N]);
  (bs "Scaron;", [352%N]);
  (bs "scaron;", [353%N]);
  (bs "sccue;", [8829%N]);
  (bs "scE;", [10932%N]);
  (bs "sce;", [10928%N]);
  (bs "Scedil;", [350%N]);
  (bs "scedil;", [351%N]);
  (bs "Scirc;", [348%N]);
  (bs "scirc;", [349%N]);
  (bs "scnap;", [10938%N]);
  (bs "scnE;", [10934%N]);
  (bs "scnsim;", [8937%N]);
  (bs "scpolint;", [10771%N]);
  (bs "scsim;", [8831%N]);
  (bs "Scy;", [1057%N]);
  (bs "scy;", [1089%N]);
  (bs "sdot;", [8901%N]);
  (bs "sdotb;", [8865%N]);
  (bs "sdote;", [10854%N]);
  (bs "searhk;", [10533%N]);
  (bs "seArr;", [8664%N]);
  (bs "searr;", [8600%N]);
  (bs "searrow;", [8600%N]);
  (bs "sect;", [167%N]);
  (bs "sect", [167%N]);
  (bs "semi;", [59%N]);
  (bs "seswar;", [10537%N]);
  (bs "setminus;", [8726%N]);
  (bs "setmn;", [8726%N]);
  (bs "sext;", [10038%N]);
  (bs "sfrown;", [8994%N]);
  (bs "sharp;", [9839%N]);
  (bs "SHCHcy;", [1065%N]);
  (bs "shchcy;", [1097%N]);
  (bs "SHcy;", [1064%N]);
  (bs "shcy;", [1096%N]);
  (bs "ShortDownArrow;", [8595%N]);
  (bs "ShortLeftArrow;", [8592%N]);
  (bs "shortmid;", [8739%N]);
  (bs "shortparallel;", [8741%N]);
  (bs "ShortRightArrow;", [8594%N]);
  (bs "ShortUpArrow;", [8593%N]);
  (bs "shy;", [173%N]);
  (bs "shy", [173%N]);
  (bs "Sigma;", [931%N]);
  (bs "sigma;", [963%N]);
  (bs "sigmaf;", [962%N]);
  (bs "sigmav;", [962%N]);
  (bs "sim;", [8764%N]);
  (bs "simdot;", [10858%N]);
  (bs "sime;", [8771%N]);
  (bs "simeq;", [8771%N]);
  (bs "simg;", [10910%N]);
  (bs "simgE;", [10912%N]);
  (bs "siml;", [10909%N]);
  (bs "simlE;", [10911%N]);
  (bs "simne;", [8774%N]);
  (bs "simplus;", [10788%N]);
  (bs "simrarr;", [10610%N]);
  (bs "slarr;", [8592%N]);
  (bs "SmallCircle;", [8728%N]);
  (bs "smallsetminus;", [8726%N]);
  (bs "smashp;", [10803%N]);
  (bs "smeparsl;", [10724%N]);
  (bs "smid;", [8739%N]);
  (bs "smile;", [8995%N]);
  (bs "smt;", [10922%N]);
  (bs "smte;", [10924%N]);
  (bs "smtes;", [10924%N; 65024%N]);
  (bs "SOFTcy;", [1068%N]);
  (bs "softcy;", [1100%N]);
  (bs "sol;", [47%N]);
  (bs "solb;", [10692%N]);
  (bs "solbar;", [9023%N]);
  (bs "spades;", [9824%N]);
  (bs "spadesuit;", [9824%N]);
  (bs "spar;", [8741%N]);
  (bs "sqcap;", [8851%N]);
  (bs "sqcaps;", [8851%N; 65024%N]);
  (bs "sqcup;", [8852%N]);
  (bs "sqcups;", [8852%N; 65024%N]);
  (bs "Sqrt;", [8730%N]);
  (bs "sqsub;", [8847%N]);
  (bs "sqsube;", [8849%N]);
  (bs "sqsubset;", [8847%N]);
  (bs "sqsubseteq;", [8849%N]);
  (bs "sqsup;", [8848%N]);
  (bs "sqsupe;", [8850%N]);
  (bs "sqsupset;", [8848%N]);
  (bs "sqsupseteq;", [8850%N]);
  (bs "squ;", [9633%N]);
  (bs "Square;", [9633%N]);
  (bs "square;", [9633%N]);
  (bs "SquareIntersection;", [8851%N]);
  (bs "SquareSubset;", [8847%N]);
  (bs "SquareSubsetEqual;", [8849%N]);
  (bs "SquareSuperset;", [8848%N]);
  (bs "SquareSupersetEqual;", [8850%N]);
  (bs "SquareUnion;", [8852%N]);
  (bs "squarf;", [9642%N]);
  (bs "squf;", [9642%N]);
  (bs "srarr;", [8594%N]);
  (bs "ssetmn;", [8726%N]);
  (bs "ssmile;", [8995%N]);
  (bs "sstarf;", [8902%N]);
  (bs "Star;", [8902%N]);
  (bs "star;", [9734%N]);
  (bs "starf;", [9733%N]);
  (bs "straightepsilon;", [1013%N]);
  (bs "straightphi;", [981%N]);
  (bs "strns;", [175%N]);
  (bs "Sub;", [8912%N]);
  (bs "sub;", [8834%N]);
  (bs "subdot;", [10941%N]);
  (bs "subE;", [10949%N]);
  (bs "sube;", [8838%N]);
  (bs "subedot;", [10947%N]);
  (bs "submult;", [10945%N]);
  (bs "subnE;", [10955%N]);
  (bs "subne;", [8842%N]);
  (bs "subplus;", [10943%N]);
  (bs "subrarr;", [10617%N]);
  (bs "Subset;", [8912%N]);
  (bs "subset;", [8834%N]);
  (bs "subseteq;", [8838%N]);
  (bs "subseteqq;", [10949%N]);
  (bs "SubsetEqual;", [8838%N]);
  (bs "subsetneq;", [8842%N]);
  (bs "subsetneqq;", [10955%N]);
  (bs "subsim;", [10951%N]);
  (bs "subsub;", [10965%N]);
  (bs "subsup;", [10963%N]);
  (bs "succ;", [8827%N]);
  (bs "succapprox;", [10936%N]);
  (bs "succcurlyeq;", [8829%N]);
  (bs "Succeeds;", [8827%N]);
  (bs "SucceedsEqual;", [10928%N]);
  (bs "SucceedsSlantEqual;", [8829%N]);
  (bs "SucceedsTilde;", [8831%N]);
  (bs "succeq;", [10928%N]);
  (bs "succnapprox;", [10938%N]);
  (bs "succneqq;", [10934%N]);
  (bs "succnsim;", [8937%N]);
  (bs "succsim;", [8831%N]);
  (bs "SuchThat;", [8715%N]);
  (bs "Sum;", [8721%N]);
  (bs "sum;", [8721%N]);
  (bs "sung;", [9834%N]);
  (bs "Sup;", [8913%N]);
  (bs "sup;", [8835%N]);
  (bs "sup1;", [185%N]);
  (bs "sup1", [185%N]);
  (bs "sup2;", [178%N]);
  (bs "sup2", [178%N]);
  (bs "sup3;", [179%N]);
  (bs "sup3", [179%N]);
  (bs "supdot;", [10942%N]);
  (bs "supdsub;", [10968%N]);
  (bs "supE;", [10950%N]);
  (bs "supe;", [8839%N]);
  (bs "supedot;", [10948%N]);
  (bs "Superset;", [8835%N]);
  (bs "SupersetEqual;", [8839%N]);
  (bs "suphsol;", [10185%N]);
  (bs "suphsub;", [10967%N]);
  (bs "suplarr;", [10619%N]);
  (bs "supmult;", [10946%N]);
  (bs "supnE;", [10956%N]);
  (bs "supne;", [8843%N]);
  (bs "supplus;", [10944%N]);
  (bs "Supset;", [8913%N]);
  (bs "supset;", [8835%N]);
  (bs "supseteq;", [8839%N]);
  (bs "supseteqq;", [10950%N]);
  (bs "supsetneq;", [8843%N]);
  (bs "supsetneqq;", [10956%N]);
  (bs "supsim;", [10952%N]);
  (bs "supsub;", [10964%N]);
  (bs "supsup;", [10966%N]);
  (bs "swarhk;", [10534%N]);
  (bs "swArr;", [8665%N]);
  (bs "swarr;", [8601%N]);
  (bs "swarrow;", [8601%N]);
  (bs "swnwar;", [10538%N]);
  (bs "szlig;", [223%N]);
  (bs "szlig", [223%N]);
  (bs "Tab;", [9%N]);
  (bs "target;", [8982%N]);
  (bs "Tau;", [932%N]);
  (bs "tau;", [964%N]);
  (bs "tbrk;", [9140%N]);
  (bs "Tcaron;", [356%N]);
  (bs "tcaron;", [357%N]);
  (bs "Tcedil;", [354%N]);
  (bs "tcedil;", [355%N]);
  (bs "Tcy;", [1058%N]);
  (bs "tcy;", [1090%N]);
  (bs "tdot;", [8411%N]);
  (bs "telrec;", [8981%N]);
  (bs "there4;", [8756%N]);
  (bs "Therefore;", [8756%N]);
  (bs "therefore;", [8756%N]);
  (bs "Theta;", [920%N]);
  (bs "theta;", [952%N]);
  (bs "thetasym;", [977%N]);
  (bs "thetav;", [977%N]);
  (bs "thickapprox;", [8776%N]);
  (bs "thicksim;", [8764%N]);
  (bs "ThickSpace;", [8287%N; 8202%N]);
  (bs "thinsp;", [8201%N]);
  (bs "ThinSpace;", [8201%N]);
  (bs "thkap;", [8776%N]);
  (bs "thksim;", [8764%N]);
  (bs "THORN;", [222%N]);
  (bs "THORN", [222%N]);
  (bs "thorn;", [254%N]);
  (bs "thorn", [254%N]);
  (bs "Tilde;", [8764%N]);
  (bs "tilde;", [732%N]);
  (bs "TildeEqual;", [8771%N]);
  (bs "TildeFullEqual;", [8773%N]);
  (bs "TildeTilde;", [8776%N]);
  (bs "times;", [215%N]);
  (bs "times", [215%N]);
  (bs "timesb;", [8864%N]);
  (bs "timesbar;", [10801%N]);
  (bs "timesd;", [10800%N]);
  (bs "tint;", [8749%N]);
  (bs "toea;", [10536%N]);
  (bs "top;", [8868%N]);
  (bs "topbot;", [9014%N]);
  (bs "topcir;", [10993%N]);
  (bs "topfork;", [10970%N]);
  (bs "tosa;", [10537%N]);
  (bs "tprime;", [8244%N]);
  (bs "TRADE;", [8482%N]);
  (bs "trade;", [8482%N]);
  (bs "triangle;", [9653%N]);
  (bs "triangledown;", [9663%N]);
  (bs "triangleleft;", [9667%N]);
  (bs "trianglelefteq;", [8884%N]);
  (bs "triangleq;", [8796%N]);
  (bs "triangleright;", [9657%N]);
  (bs "trianglerighteq;", [8885%N]);
  (bs "tridot;", [9708%N]);
  (bs "trie;", [8796%N]);
  (bs "triminus;", [10810%N]);
  (bs "TripleDot;", [8411%N]);
  (bs "triplus;", [10809%N]);
  (bs "trisb;", [10701%N]);
  (bs "tritime;", [10811%N]);
  (bs "trpezium;", [9186%N]);
  (bs "TScy;", [1062%N]);
  (bs "tscy;", [1094%N]);
  (bs "TSHcy;", [1035%N]);
  (bs "tshcy;", [1115%N]);
  (bs "Tstrok;", [358%N]);
  (bs "tstrok;", [359%N]);
  (bs "twixt;", [8812%N]);
  (bs "twoheadleftarrow;", [8606%N]);
  (bs "twoheadrightarrow;", [8608%N]);
  (bs "Uacute;", [218%N]);
  (bs "Uacute", [218%N]);
  (bs "uacute;", [250%N]);
  (bs "uacute", [250%N]);
  (bs "Uarr;", [8607%N]);
  (bs "uArr;", [8657%N]);
  (bs "uarr;", [8593%N]);
  (bs "Uarrocir;", [10569%N]);
  (bs "Ubrcy;", [1038%N]);
  (bs "ubrcy;", [1118%N]);
  (bs "Ubreve;", [364%N]);
  (bs "ubreve;", [365%N]);
  (bs "Ucirc;", [219%N]);
  (bs "Ucirc", [219%N]);
  (bs "ucirc;", [251%N]);
  (bs "ucirc", [251%N]);
  (bs "Ucy;", [1059%N]);
  (bs "ucy;", [1091%N]);
  (bs "udarr;", [8645%N]);
  (bs "Udblac;", [368%N]);
  (bs "udblac;", [369%N]);
  (bs "udhar;", [10606%N]);
  (bs "ufisht;", [10622%N]);
  (bs "Ugrave;", [217%N]);
  (bs "Ugrave", [217%N]);
  (bs "ugrave;", [249%N]);
  (bs "ugrave", [249%N]);
  (bs "uHar;", [10595%N]);
  (bs "uharl;", [8639%N]);
  (bs "uharr;", [8638%N]);
  (bs "uhblk;", [9600%N]);
  (bs "ulcorn;", [8988%N]);
  (bs "ulcorner;", [8988%N]);
  (bs "ulcrop;", [8975%N]);
  (bs "ultri;", [9720%N]);
  (bs "Umacr;", [362%N]);
  (bs "umacr;", [363%N]);
  (bs "uml;", [168%N]);
  (bs "uml", [168%N]);
  (bs "UnderBar;", [95%N]);
  (bs "UnderBrace;", [9183%N]);
  (bs "UnderBracket;", [9141%N]);
  (bs "UnderParenthesis;", [9181%N]);
  (bs "Union;", [8899%N]);
  (bs "UnionPlus;", [8846%N]);
  (bs "Uogon;", [370%N]);
  (bs "uogon;", [371%N]);
  (bs "UpArrow;", [8593%N]);
  (bs "Uparrow;", [8657%N]);
  (bs "uparrow;", [8593%N]);
  (bs "UpArrowBar;", [10514%N]);
  (bs "UpArrowDownArrow;", [8645%N]);
  (bs "UpDownArrow;", [8597%N]);
  (bs "Updownarrow;", [8661%N]);
  (bs "updownarrow;", [8597%N]);
  (bs "UpEquilibrium;", [10606%N]);
  (bs "upharpoonleft;", [8639%N]);
  (bs "upharpoonright;", [8638%N]);
  (bs "uplus;", [8846%N]);
  (bs "UpperLeftArrow;", [8598%N]);
  (bs "UpperRightArrow;", [8599%N]);
  (bs "Upsi;", [978%N]);
  (bs "upsi;", [965%N]);
  (bs "upsih;", [978%N]);
  (bs "Upsilon;", [933%N]);
  (bs "upsilon;", [965%N]);
  (bs "UpTee;", [8869%N]);
  (bs "UpTeeArrow;", [8613%N]);
  (bs "upuparrows;", [8648%N]);
  (bs "urcorn;", [8989%N]);
  (bs "urcorner;", [8989%N]);
  (bs "urcrop;", [8974%N]);
  (bs "Uring;", [366%N]);
  (bs "uring;", [367%N]);
  (bs "urtri;", [9721%N]);
  (bs "utdot;", [8944%N]);
  (bs "Utilde;", [360%N]);
  (bs "utilde;", [361%N]);
  (bs "utri;", [9653%N]);
  (bs "utrif;", [9652%N]);
  (bs "uuarr;", [8648%N]);
  (bs "Uuml;", [220%N]);
  (bs "Uuml", [220%N]);
  (bs "uuml;", [252%N]);
  (bs "uuml", [252%N]);
  (bs "uwangle;", [10663%N]);
  (bs "vangrt;", [10652%N]);
  (bs "varepsilon;", [1013%N]);
  (bs "varkappa;", [1008%N]);
  (bs "varnothing;", [8709%N]);
  (bs "varphi;", [981%N]);
  (bs "varpi;", [982%N]);
  (bs "varpropto;", [8733%N]);
  (bs "vArr;", [8661%N]);
  (bs "varr;", [8597%N]);
  (bs "varrho;", [1009%N]);
  (bs "varsigma;", [962%N]);
  (bs "varsubsetneq;", [8842%N; 65024%N]);
  (bs "varsubsetneqq;", [10955%N; 65024%N]);
  (bs "varsupsetneq;", [8843%N; 65024%N]);
  (bs "varsupsetneqq;", [10956%N; 65024%N]);
  (bs "vartheta;", [977%N]);
  (bs "vartriangleleft;", [8882%N]);
  (bs "vartriangleright;", [8883%N]);
  (bs "Vbar;", [10987%N]);
  (bs "vBar;", [10984%N]);
  (bs "vBarv;", [10985%N]);
  (bs "Vcy;", [1042%N]);
  (bs "vcy;", [1074%N]);
  (bs "VDash;", [8875%N]);
  (bs "Vdash;", [8873%N]);
  (bs "vDash;", [8872%N]);
  (bs "vdash;", [8866%N]);
  (bs "Vdashl;", [10982%N]);
  (bs "Vee;", [8897%N]);
  (bs "vee;", [8744%N]);
  (bs "veebar;", [8891%N]);
  (bs "veeeq;", [8794%N]);
  (bs "vellip;", [8942%N]);
  (bs "Verbar;", [8214%N]);
  (bs "verbar;", [124%N]);
  (bs "Vert;", [8214%N]);
  (bs "vert;", [124%N]);
  (bs "VerticalBar;", [8739%N]);
  (bs "VerticalLine;", [124%N]);
  (bs "VerticalSeparator;", [10072%N]);
  (bs "VerticalTilde;", [8768%N]);
  (bs "VeryThinSpace;", [8202%N]);
  (bs "vltri;", [8882%N]);
  (bs "vnsub;", [8834%N; 8402%N]);
  (bs "vnsup;", [8835%N; 8402%N]);
  (bs "vprop;", [8733%N]);
  (bs "vrtri;", [8883%N]);
  (bs "vsubnE;", [10955%N; 65024%N]);
  (bs "vsubne;", [8842%N; 65024%N]);
  (bs "vsupnE;", [10956%N; 65024%N]);
  (bs "vsupne;", [8843%N; 65024%N]);
  (bs "Vvdash;", [8874%N]);
  (bs "vzigzag;", [10650%N]);
  (bs "Wcirc;", [372%N]);
  (bs "wcirc;", [373%N]);
  (bs "wedbar;", [10847%N]);
  (bs "Wedge;", [8896%N]);
  (bs "wedge;", [8743%N]);
  (bs "wedgeq;", [8793%N]);
  (bs "weierp;", [8472%N]);
  (bs "wp;", [8472%N]);
  (bs "wr;", [8768%N]);
  (bs "wreath;", [8768%N]);
  (bs "xcap;", [8898%N]);
  (bs "xcirc;", [9711%N]);
  (bs "xcup;", [8899%N]);
  (bs "xdtri;", [9661%N]);
  (bs "xhArr;", [10234%N]);
  (bs "xharr;", [10231%N]);
  (bs "Xi;", [926%N]);
  (bs "xi;", [958%N]);
  (bs "xlArr;", [10232%N]);
  (bs "xlarr;", [10229%N]);
  (bs "xmap;", [10236%N]);
  (bs "xnis;", [8955%N]);
  (bs "xodot;", [10752%N]);
  (bs "xoplus;", [10753%N]);
  (bs "xotime;", [10754%N]);
  (bs "xrArr;", [10233%N]);
  (bs "xrarr;", [10230%N]);
  (bs "xsqcup;", [10758%N]);
  (bs "xuplus;", [10756%N]);
  (bs "xutri;", [9651%N]);
  (bs "xvee;", [8897%N]);
  (bs "xwedge;", [8896%N]);
  (bs "Yacute;", [221%N]);
  (bs "Yacute", [221%N]);
  (bs "yacute;", [253%N]);
  (bs "yacute", [253%N]);
  (bs "YAcy;", [1071%N]);
  (bs "yacy;", [1103%N]);
  (bs "Ycirc;", [374%N]);
  (bs "ycirc;", [375%N]);
  (bs "Ycy;", [1067%N]);
  (bs "ycy;", [1099%N]);
  (bs "yen;", [165%N]);
  (bs "yen", [165%N]);
  (bs "YIcy;", [1031%N]);
  (bs "yicy;", [1111%N]);
  (bs "YUcy;", [1070%N]);
  (bs "yucy;", [1102%N]);
  (bs "Yuml;", [376%N]);
  (bs "yuml;", [255%N]);
  (bs "yuml", [255%N]);
  (bs "Zacute;", [377%N]);
  (bs "zacute;", [378%N]);
  (bs "Zcaron;", [381%N]);
  (bs "zcaron;", [382%N]);
  (bs "Zcy;", [1047%N]);
  (bs "zcy;", [1079%N]);
  (bs "Zdot;", [379%N]);
  (bs "zdot;", [380%N]);
  (bs "zeetrf;", [8488%N]);
  (bs "ZeroWidthSpace;", [8203%N]);
  (bs "Zeta;", [918%N]);
  (bs "zeta;", [950%N]);
  (bs "Zfr;", [8488%N]);
  (bs "ZHcy;", [1046%N]);
  (bs "zhcy;", [1078%N]);
  (bs "zigrarr;", [8669%N]);
  (bs "Zopf;", [8484%N]);
  (bs "zwj;", [8205%N]);
  (bs "zwnj;", [8204%N])].
